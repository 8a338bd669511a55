(** Proofs about the Tethys scheme. *)
From stdpp Require Import prelude gmap.
From Coq Require Import ZArith NArith Lia.
From Verif Require Import Base EncModel EncSpec EncProofs StoreModel StoreSpec StoreProofs
  StoreTheorems KvModel SchemeModel SchemeSpec.
Local Open Scope nat_scope.
Local Arguments N.of_nat : simpl never.
Local Arguments N.modulo : simpl never.

Lemma run_inserts_app sp b k1 k2 :
  run_inserts sp b (k1 ++ k2) =
  ((run_inserts sp (run_inserts sp b k1).1 k2).1,
   (run_inserts sp b k1).2 ++ (run_inserts sp (run_inserts sp b k1).1 k2).2).
Proof.
  revert b. induction k1 as [|kv k1 IH]; intros b; simpl.
  - by destruct (run_inserts sp b k2).
  - rewrite IH. simpl. done.
Qed.

(** The derivation of the keys. *)
Lemma fmap_bind_join {A B} (f : A -> list B) l : l ≫= f = mjoin (f <$> l).
Proof. induction l as [|x l IH]; [done|]. rewrite bind_cons, IH. done. Qed.

Lemma le_bytes_digits k : forall n,
  le_bytes k n = (fun j => ((n / 256 ^ N.of_nat j) mod 256)%N) <$> seq 0 k.
Proof.
  induction k as [|k IH]; intros n; [done|]. cbn [le_bytes seq]. rewrite fmap_cons. f_equal.
  - change (256 ^ N.of_nat 0)%N with 1%N. by rewrite N.div_1_r.
  - rewrite IH, <- fmap_S_seq, <- list_fmap_compose. apply list_fmap_ext. intros _ j _.
    unfold compose. f_equal.
    rewrite Nat2N.inj_succ, N.pow_succ_r', N.div_div; [done|done|apply N.pow_nonzero; done].
Qed.

Lemma le64_digits n : le64 n = (fun j => ((n / 256 ^ N.of_nat j) mod 256)%N) <$> seq 0 8.
Proof. rewrite <- le_bytes_digits. with_strategy transparent [le64] reflexivity. Qed.

Lemma derive_block_key sc w i : derive_core_key sc (sc_prf sc w) i = block_key sc w i.
Proof. unfold derive_core_key, block_key, key_input. by rewrite le64_digits. Qed.

Lemma block_key_inj sc ws uses u v : derive_ok sc ws uses ->
  u ∈ uses -> v ∈ uses -> u.1 ∈ ws -> v.1 ∈ ws ->
  (N.of_nat u.2 < 2 ^ 64)%N -> (N.of_nat v.2 < 2 ^ 64)%N ->
  block_key sc u.1 u.2 = block_key sc v.1 v.2 -> u = v.
Proof.
  intros [Hl Hp Hh] Hu Hv Wu Wv Cu Cv E. apply (Hh u v Hu Hv) in E. unfold key_input in E.
  apply app_inj_1 in E as [E1 E2]; [|by rewrite !Hl].
  rewrite <- !le64_digits in E2. apply le64_inj in E2; [|done|done]. apply Nat2N.inj in E2.
  assert (u.1 = v.1).
  { apply elem_of_list_lookup in Wu as [i Hi]. apply elem_of_list_lookup in Wv as [j Hj].
    assert (i = j) as <-.
    { eapply NoDup_lookup; [exact Hp|..]; rewrite list_lookup_fmap; [by rewrite Hi|rewrite Hj].
      simpl. by rewrite E1. }
    congruence. }
  destruct u, v; simpl in *; congruence.
Qed.

(** The blocks that insert_list makes of a list. *)
Fixpoint cut (key : nat -> bytes) (M bc : nat) (block : list bytes) (ids : list N)
  : list (bytes * list bytes) :=
  match ids with
  | [] => [(key bc, block)]
  | id :: ids' =>
      let block' := block ++ [le64 id] in
      if bool_decide (length block' = M) then (key bc, block') :: cut key M (S bc) [] ids'
      else cut key M bc block' ids'
  end.

Section cut.
  Context (key : nat -> bytes) (M : nat) (HM : 0 < M).

  Lemma cut_keys ids : forall bc block, length block < M ->
    (cut key M bc block ids).*1 = key <$> seq bc (S ((length block + length ids) / M)).
  Proof.
    induction ids as [|id ids IH]; intros bc block Hb; cbn [cut].
    - rewrite Nat.add_0_r, Nat.div_small by done. done.
    - case_bool_decide as E; rewrite app_length in E; simpl in E.
      + csimpl. rewrite IH by (simpl; lia). simpl length.
        replace (length block + S (length ids)) with (1 * M + (0 + length ids)) by lia.
        rewrite Nat.div_add_l by lia. done.
      + rewrite IH by (rewrite app_length; simpl; lia).
        rewrite app_length. simpl. do 4 f_equal. lia.
  Qed.

  Lemma cut_values ids : forall bc block, length block < M ->
    mjoin (cut key M bc block ids).*2 = block ++ (le64 <$> ids).
  Proof.
    induction ids as [|id ids IH]; intros bc block Hb; cbn [cut].
    - csimpl. by rewrite !app_nil_r.
    - case_bool_decide as E; rewrite app_length in E; simpl in E.
      + csimpl. rewrite IH by (simpl; lia). by rewrite <- app_assoc.
      + rewrite IH by (rewrite app_length; simpl; lia). csimpl. by rewrite <- app_assoc.
  Qed.

  Lemma cut_short ids : forall bc block, length block < M ->
    Forall (fun kv => length kv.2 <= M) (cut key M bc block ids).
  Proof.
    induction ids as [|id ids IH]; intros bc block Hb; cbn [cut].
    - repeat constructor. simpl. lia.
    - case_bool_decide as E; rewrite app_length in E; simpl in E.
      + constructor; [simpl; rewrite app_length; simpl; lia|]. apply IH. simpl. lia.
      + apply IH. rewrite app_length. simpl. lia.
  Qed.

  Lemma cut_objs p ids : kp_val p = 8 -> (forall n, length (key n) = kp_key p) ->
    forall bc block, Forall (fun v => length v = 8) block ->
    Forall (fun kv => obj_ok p kv.1 kv.2) (cut key M bc block ids).
  Proof.
    intros Hv Hk. induction ids as [|id ids IH]; intros bc block Hb; cbn [cut].
    - repeat constructor; simpl; auto. by rewrite Hv.
    - assert (Forall (fun v => length v = 8) (block ++ [le64 id])).
      { apply Forall_app. split; [done|]. constructor; [apply le64_length|constructor]. }
      case_bool_decide as E; [|by apply IH]. constructor; [|by apply IH].
      split; simpl; [done|by rewrite Hv].
  Qed.

  (** Only the last block may be empty, when the list fills its blocks. *)
  Lemma cut_nonempty ids : forall bc block, length block < M ->
    exists l k b, cut key M bc block ids = l ++ [(k, b)] /\ Forall (fun kv => kv.2 <> []) l /\
      length b = (length block + length ids) mod M.
  Proof.
    induction ids as [|id ids IH]; intros bc block Hb; cbn [cut].
    - exists [], (key bc), block. split_and!; auto. rewrite Nat.add_0_r, Nat.mod_small; done.
    - case_bool_decide as E; rewrite app_length in E; simpl in E.
      + destruct (IH (S bc) [] ltac:(simpl; lia)) as (l & k & b & E1 & E2 & E3).
        exists ((key bc, block ++ [le64 id]) :: l), k, b. rewrite E1. split_and!; auto.
        * constructor; [|done]. simpl. by destruct block.
        * rewrite E3. simpl length.
          replace (length block + S (length ids)) with ((0 + length ids) + 1 * M) by lia.
          by rewrite Nat.mod_add by lia.
      + destruct (IH bc (block ++ [le64 id]) ltac:(rewrite app_length; simpl; lia)) as (l & k & b & E1 & E2 & E3).
        exists l, k, b. split_and!; auto. rewrite E3, app_length. simpl. f_equal. lia.
  Qed.
End cut.

Definition cut_of (sc : scheme) (x : bytes * list N) : list (bytes * list bytes) :=
  cut (derive_core_key sc (sc_prf sc x.1)) (max_list_size (sp_enc (sc_store sc))) 0 [] x.2.
Definition blocks_of (sc : scheme) (db : database) : list (bytes * list bytes) :=
  mjoin (cut_of sc <$> db).

Lemma insert_blocks_ok sc token ids : forall b bc block,
  let sp := sc_store sc in
  let kvs := cut (derive_core_key sc token) (max_list_size (sp_enc sp)) bc block ids in
  Forall (fun r => r = Ok tt) (run_inserts sp b kvs).2 ->
  exists b' block',
    insert_blocks sc token b bc block ids = (b', Ok (bc + length kvs - 1, block')) /\
    (run_inserts sp b kvs).1 = (store_insert sp b' (derive_core_key sc token (bc + length kvs - 1)) block').1 /\
    (store_insert sp b' (derive_core_key sc token (bc + length kvs - 1)) block').2 = Ok tt.
Proof.
  intros b bc block. cbn zeta. revert b bc block.
  induction ids as [|id ids IH]; intros b bc block H; cbn [cut insert_blocks] in *.
  - cbn [run_inserts fst snd] in *. apply Forall_cons in H as [H _]. exists b, block.
    simpl length. rewrite Nat.add_sub. done.
  - case_bool_decide as E.
    + cbn [run_inserts fst snd] in *. apply Forall_cons in H as [H1 H2]. rewrite H1.
      apply IH in H2 as (b' & block' & E1 & E2 & E3). exists b', block'.
      cbn [length].
      replace (bc + S (length (cut (derive_core_key sc token)
        (max_list_size (sp_enc (sc_store sc))) (S bc) [] ids)) - 1)
        with (S bc + length (cut (derive_core_key sc token)
        (max_list_size (sp_enc (sc_store sc))) (S bc) [] ids) - 1) by lia.
      done.
    + by apply IH.
Qed.

Lemma cut_of_length sc x : 0 < max_list_size (sp_enc (sc_store sc)) ->
  length (cut_of sc x) = S (length x.2 / max_list_size (sp_enc (sc_store sc))).
Proof.
  intros HM. unfold cut_of. rewrite <- (fmap_length fst), cut_keys by done.
  by rewrite fmap_length, seq_length.
Qed.

Lemma tethys_insert_ok sc b x :
  let sp := sc_store sc in
  0 < max_list_size (sp_enc sp) ->
  Forall (fun r => r = Ok tt) (run_inserts sp (tb_store b) (cut_of sc x)).2 ->
  tethys_insert sc b x.1 x.2 =
    (TB (run_inserts sp (tb_store b) (cut_of sc x)).1
        (ctr_set (tb_counters b) x.1 (N.of_nat (S (length x.2 / max_list_size (sp_enc sp))))), Ok tt).
Proof.
  intros sp HM H. unfold tethys_insert.
  destruct (insert_blocks_ok sc (sc_prf sc x.1) x.2 (tb_store b) 0 [] H) as (b' & block' & E1 & E2 & E3).
  rewrite E1. cbn [fst snd]. rewrite E3. unfold cut_of. fold sp in E2 |- *. rewrite E2.
  pose proof (cut_of_length sc x HM) as HL. unfold cut_of in HL. fold sp in HL. rewrite HL.
  repeat f_equal. lia.
Qed.

Lemma insert_db_ok sc db : 0 < max_list_size (sp_enc (sc_store sc)) -> forall b,
  Forall (fun r => r = Ok tt) (run_inserts (sc_store sc) (tb_store b) (blocks_of sc db)).2 ->
  insert_db sc b db =
    (TB (run_inserts (sc_store sc) (tb_store b) (blocks_of sc db)).1
        (foldl (fun c x => ctr_set c x.1
           (N.of_nat (S (length x.2 / max_list_size (sp_enc (sc_store sc)))))) (tb_counters b) db),
     replicate (length db) (Ok tt)).
Proof.
  intros HM. induction db as [|x db IH]; intros b H; unfold blocks_of in *; csimpl in *.
  - by destruct b.
  - rewrite run_inserts_app in *. cbn [fst snd] in *. apply Forall_app in H as [H1 H2].
    rewrite (tethys_insert_ok sc b x HM H1). cbn [fst snd tb_store tb_counters].
    rewrite IH by done. done.
Qed.

Lemma counters_foldl (f : bytes * list N -> N) db w : NoDup db.*1 -> forall c,
  foldl (fun c x => ctr_set c x.1 (f x)) c db !! w =
    match list_find (fun x => x.1 = w) db with
    | Some (_, x) => Some (f x mod 2 ^ 32)%N
    | None => c !! w
    end.
Proof.
  induction db as [|x db IH]; intros Hnd c; csimpl in *; [done|].
  apply NoDup_cons in Hnd as [Hx Hnd]. rewrite IH by done.
  destruct (decide (x.1 = w)) as [E|E]; simpl.
  - destruct (list_find (fun x => x.1 = w) db) as [[i y]|] eqn:F.
    + apply list_find_Some in F as (F1 & F2 & _). exfalso. apply Hx. rewrite E, <- F2.
      apply elem_of_list_fmap. exists y. split; [done|]. by eapply elem_of_list_lookup_2.
    + unfold ctr_set. by rewrite E, lookup_insert.
  - destruct (list_find (fun x => x.1 = w) db) as [[i y]|] eqn:F; simpl; [done|].
    unfold ctr_set. by rewrite lookup_insert_ne.
Qed.

Section db.
  Context (sc : scheme) (db : database) (Hok : scheme_ok sc db).
  Let sp := sc_store sc.
  Let M := max_list_size (sp_enc sp).

  Lemma blocks_accepted : accepted (sp_enc sp) (blocks_of sc db) = blocks_of sc db.
  Proof.
    assert (HF : Forall (admissible (sp_enc sp)) (blocks_of sc db)).
    { unfold blocks_of. apply Forall_join, Forall_fmap, Forall_forall. intros x Hx. simpl.
      eapply Forall_impl; [apply cut_short; [apply Hok|simpl; apply Hok]|].
      intros kv Hkv. simpl in Hkv. unfold admissible. unfold max_list_size in *.
      pose proof (so_block _ _ Hok) as HM. unfold max_list_size in HM. fold sp in Hkv, HM. lia. }
    unfold accepted. induction HF as [|kv l H HF IH]; [done|].
    rewrite filter_cons_True by done. by rewrite IH.
  Qed.

  Lemma so_keys : NoDup (mjoin ((fun x => block_keys sc x.1 x.2) <$> db)).
  Proof.
    assert (E : mjoin ((fun x => block_keys sc x.1 x.2) <$> db) =
                (fun u => block_key sc u.1 u.2) <$> uses_of sc db).
    { unfold uses_of. clear. rewrite fmap_bind_join.
      induction db as [|x d IH]; [done|]. rewrite !fmap_cons. cbn [mjoin list_join].
      rewrite fmap_app. f_equal; [|exact IH]. unfold block_keys. by rewrite <- list_fmap_compose. }
    rewrite E. pose proof (so_derive _ _ Hok) as HD.
    assert (Hin : forall u, u ∈ uses_of sc db -> u.1 ∈ db.*1 /\ (N.of_nat u.2 < 2 ^ 64)%N).
    { intros u. unfold uses_of. intros (x & Hu & Hx)%elem_of_list_bind.
      apply elem_of_list_fmap in Hu as (i & -> & Hi%elem_of_seq). simpl. split; [by apply elem_of_list_fmap_1|].
      pose proof (so_short _ _ Hok) as HS. rewrite Forall_forall in HS. specialize (HS x Hx).
      fold sp in HS, Hi. change (2 ^ 64)%N with (2 ^ 32 * 2 ^ 32)%N. lia. }
    apply NoDup_fmap_2_strong.
    - intros u v Hu Hv. destruct (Hin u Hu), (Hin v Hv). by apply (block_key_inj sc db.*1 (uses_of sc db)).
    - unfold uses_of. pose proof (so_keywords _ _ Hok) as HK. clear -HK.
      induction db as [|x d IH]; [constructor|]. rewrite fmap_cons in HK. apply NoDup_cons in HK as [Hx HK].
      rewrite bind_cons. apply NoDup_app. split_and!; [|..|by apply IH].
      + apply NoDup_fmap; [|apply NoDup_seq]. intros i j. by injection 1.
      + intros u Hu (y & Hy & Hyd)%elem_of_list_bind.
        apply elem_of_list_fmap in Hu as (i & -> & _). apply elem_of_list_fmap in Hy as (j & Hy & _).
        apply Hx. injection Hy as -> _. by apply elem_of_list_fmap_1.
  Qed.

  Lemma blocks_db_ok : db_ok sp (blocks_of sc db).
  Proof.
    split; try apply Hok.
    - unfold blocks_of. apply Forall_join, Forall_fmap, Forall_forall. intros x Hx. simpl.
      apply cut_objs; [apply Hok| |constructor]. intros n. unfold derive_core_key. apply Hok.
    - rewrite blocks_accepted. pose proof so_keys as HN.
      assert (E : (blocks_of sc db).*1 = mjoin ((fun x => block_keys sc x.1 x.2) <$> db)); [|by rewrite E].
      unfold blocks_of. pose proof (so_block _ _ Hok) as HM. clear HN.
      clear Hok. induction db as [|x d IH]; [done|]. rewrite !fmap_cons. cbn [mjoin list_join].
      rewrite fmap_app. f_equal; [|exact IH]. unfold cut_of, block_keys. rewrite cut_keys by done.
      apply list_fmap_ext. intros _ i _. apply derive_block_key.
  Qed.

  Lemma blocks_last : full_lists_last sc db -> empty_lists_last (sp_enc sp) (blocks_of sc db).
  Proof.
    intros Hf. unfold empty_lists_last. rewrite blocks_accepted. unfold blocks_of.
    pose proof (so_block _ _ Hok) as HM. clear Hok.
    induction db as [|x d IH]; csimpl; [by exists [], []|].
    destruct (cut_nonempty (derive_core_key sc (sc_prf sc x.1)) M HM x.2 0 [] HM)
      as (l & k & b & E1 & E2 & E3). simpl in E3.
    unfold cut_of at 1. fold sp M. rewrite E1.
    destruct (decide (length x.2 mod M = 0)) as [E|E].
    - assert (Hd : Forall (fun y => y.2 = []) d).
      { apply Forall_forall. intros y Hy. apply elem_of_list_lookup in Hy as [j Hj].
        by apply (Hf 0 (S j) x y ltac:(lia)). }
      exists l, ([(k, b)] ++ mjoin (cut_of sc <$> d)). split_and!; auto; [by rewrite app_assoc|].
      constructor; simpl; [apply nil_length_inv; lia|].
      clear -Hd. induction Hd as [|y d Hy Hd IH]; csimpl; [constructor|].
      apply Forall_app. split; [|done]. unfold cut_of. rewrite Hy. by repeat constructor.
    - destruct IH as (a1 & a2 & H1 & H2 & H3).
      { intros i j y z Hij Hi Hj. by apply (Hf (S i) (S j) y z ltac:(lia)). }
      exists (l ++ [(k, b)] ++ a1), a2. rewrite H1, <- !app_assoc. split_and!; auto.
      apply Forall_app. split; [done|]. constructor; [|done]. simpl. intros ->. simpl in E3. lia.
  Qed.

  Lemma search_loop s c : tc_stash c = st_stash s -> forall (kvs : list (bytes * list bytes)) token l,
    (forall k, exists r, get_list sp s k = Ok r /\ r ≡ₚ values_of k kvs) ->
    exists r, (bs <~ server_loop sc (Store (st_table s) ∅) token l; tethys_decode sc c bs) = Ok r /\
      r ≡ₚ le_val <$> mjoin ((fun i => values_of (derive_core_key sc token i) kvs) <$> l).
  Proof.
    intros Hst kvs token l Hg. induction l as [|i l IH]; csimpl.
    - by exists [].
    - destruct (Hg (derive_core_key sc token i)) as (r & Hr & Pr).
      destruct IH as (r' & Hr' & Pr').
      unfold get_list in Hr. apply rbind_ok in Hr as (b & Hb & Hr).
      apply rbind_ok in Hr as (d & Hd & Hr). injection Hr as <-.
      assert (Hb' : get_buckets sp (Store (st_table s) ∅) (derive_core_key sc token i) = Ok b) by exact Hb.
      fold sp. rewrite Hb'. cbn [rbind].
      apply rbind_ok in Hr' as (bs & Hbs & Hr'). rewrite Hbs. cbn [rbind tethys_decode].
      fold sp. rewrite Hd. cbn [rbind]. rewrite Hr'. cbn [rbind]. eexists. split; [done|].
      rewrite Hst. etransitivity; [|by rewrite fmap_app].
      apply Permutation_app; [by apply fmap_Permutation|done].
  Qed.

  Lemma ids_of_blocks w x i : list_find (fun x => x.1 = w) db = Some (i, x) ->
    le_val <$> mjoin ((fun i => values_of (derive_core_key sc (sc_prf sc w) i) (blocks_of sc db)) <$>
      seq 0 (S (length x.2 / M))) = x.2.
  Proof.
    intros F. apply list_find_Some in F as (F1 & F2 & _).
    assert (E : (fun i => values_of (derive_core_key sc (sc_prf sc w) i) (blocks_of sc db)) <$>
      seq 0 (S (length x.2 / M)) = (cut_of sc x).*2).
    { change (fun i => values_of (derive_core_key sc (sc_prf sc w) i) (blocks_of sc db))
        with ((fun k => values_of k (blocks_of sc db)) ∘ derive_core_key sc (sc_prf sc w)).
      rewrite list_fmap_compose.
      replace (derive_core_key sc (sc_prf sc w) <$> seq 0 (S (length x.2 / M))) with (cut_of sc x).*1.
      2: { unfold cut_of. rewrite cut_keys by apply Hok. simpl. by rewrite F2. }
      pose proof (dk_keys _ _ blocks_db_ok) as HN. rewrite blocks_accepted in HN.
      rewrite <- list_fmap_compose. apply list_fmap_ext. intros j [k v] Hj. simpl.
      apply values_of_in; [done|]. unfold blocks_of. apply elem_of_list_join.
      exists (cut_of sc x). split; [by eapply elem_of_list_lookup_2|].
      apply elem_of_list_fmap. exists x. split; [done|]. by eapply elem_of_list_lookup_2. }
    rewrite E. unfold cut_of. rewrite cut_values by apply Hok. simpl.
    rewrite <- list_fmap_compose.
    assert (HF : Forall (fun id => (id < 2 ^ 64)%N) x.2).
    { by eapply (Forall_lookup_1 _ _ _ _ (so_ids _ _ Hok)). }
    clear -HF. induction HF as [|id l H HF IH]; csimpl; [done|].
    rewrite IH. unfold compose. rewrite le64_val by done. done.
  Qed.

  Lemma scheme_correct sb :
    new_store_builder sp = Ok sb -> full_lists_last sc db ->
    exists b f c,
      insert_db sc (TB sb ∅) db = (b, replicate (length db) (Ok tt)) /\
      (exists fuel, forall fuel', fuel <= fuel' -> (tethys_build fuel' sc b).2 = Ok f) /\
      open_client sc (tb_counters b) f = Ok c /\
      forall w, exists r, tethys_search sc c (open_server f) w = Ok r /\ r ≡ₚ ids_of w db.
  Proof.
    intros Hb Hf. pose proof blocks_db_ok as Hdb.
    destruct (store_correct sp _ sb Hdb Hb (blocks_last Hf)) as (b2 & f & s & E1 & E2 & E3 & E4).
    rewrite blocks_accepted in E4.
    assert (HI : insert_db sc (TB sb ∅) db = (TB (run_inserts sp sb (blocks_of sc db)).1
      (foldl (fun c x => ctr_set c x.1 (N.of_nat (S (length x.2 / M)))) ∅ db),
      replicate (length db) (Ok tt))).
    { apply (insert_db_ok sc db (so_block _ _ Hok) (TB sb ∅)). simpl. fold sp. rewrite E1.
      apply Forall_fmap, Forall_forall. intros kv Hkv. simpl.
      rewrite decide_True; [done|]. rewrite <- blocks_accepted in Hkv.
      by apply accepted_adm in Hkv as [? _]. }
    unfold open_store in E3. apply rbind_ok in E3 as (m & Em & E3). injection E3 as <-.
    eexists _, f, (TC m _). split; [exact HI|]. split.
    { eexists. intros fuel Hfu. unfold tethys_build. simpl. fold sp. by rewrite (E2 fuel Hfu). }
    split; [unfold open_client; fold sp; by rewrite Em|].
    intros w. unfold tethys_search, tethys_search_request, tethys_server_search. simpl.
    unfold ctr_get.
    rewrite (counters_foldl (fun x => N.of_nat (S (length x.2 / M))) db w (so_keywords _ _ Hok) ∅).
    edestruct (search_loop (Store (sf_table f) m) (TC m
      (foldl (fun c x => ctr_set c x.1 (N.of_nat (S (length x.2 / M)))) ∅ db)) eq_refl
      (blocks_of sc db) (sc_prf sc w)) as (r & Hr & Pr); [exact E4|].
    exists r. split; [exact Hr|]. rewrite Pr. unfold ids_of.
    destruct (list_find (fun x => x.1 = w) db) as [[i x]|] eqn:F; simpl.
    - rewrite N.mod_small, Nat2N.id.
      + by rewrite (ids_of_blocks w x i F).
      + apply list_find_Some in F as (F1 & F2 & _).
        by eapply (Forall_lookup_1 _ _ _ _ (so_short _ _ Hok)).
    - rewrite lookup_empty. simpl. done.
  Qed.
End db.
