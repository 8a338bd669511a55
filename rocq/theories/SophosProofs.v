(** Proofs about Sophos. *)
From stdpp Require Import prelude gmap.
From Coq Require Import NArith Lia.
From Verif Require Import Base EncModel KvModel UtilsModel SophosModel SophosSpec Props_Utils PoolModel PoolSpec.
Local Arguments N.modulo : simpl never.
Local Arguments N.pow : simpl never.
Local Arguments N.of_nat : simpl never.
Local Arguments N.to_nat : simpl never.

Section proofs.
  Variable S : sophos.
  Hypothesis Htdp : tdp_ok S.

  Definition stok (kw : bytes) (i : nat) : bytes :=
    Nat.iter i (so_inv S) (so_gen S (so_keyword_index S kw)).
  Definition skey (kw : bytes) : bytes := so_kprf S (so_keyword_index S kw).
  Definition smask (kw : bytes) (i : nat) : bytes := so_prf S (skey kw) (stok kw i ++ [49%N]).

  Lemma insertions_app kw h h' : insertions kw (h ++ h') = insertions kw h ++ insertions kw h'.
  Proof. apply omap_app. Qed.
  Lemma insertions_snoc kw h o : insertions kw (h ++ [o]) =
    insertions kw h ++ match o with SoIns kw' i d => if decide (kw' = kw) then [(i, d)] else [] | _ => [] end.
  Proof. rewrite insertions_app. f_equal. destruct o; csimpl; [|done]. unfold insertions. csimpl. by case_decide. Qed.

  (** Invariant after the history [h]. *)
  Record inv (h : list so_op) (c : counters) (db : gmap bytes N) : Prop := {
    iv_ctr : forall kw, c !! kw = match length (insertions kw h) with 0 => None | Datatypes.S n => Some (N.of_nat n) end;
    iv_db : forall kw i x, insertions kw h !! i = Some x ->
      db !! update_token S kw i = if x.2 : bool then Some (xor_mask x.1 (smask kw i)) else None;
    iv_dom : forall t v, db !! t = Some v ->
      exists kw i, i < length (insertions kw h) /\ t = update_token S kw i }.

  Lemma inv_start : inv [] ∅ ∅.
  Proof. split; [done|by intros kw i x ?|by intros t v ?]. Qed.

  Lemma request_eq c kw index n : ctr_get_and_increment c kw = (<[kw := N.of_nat n]> c, N.of_nat n) ->
    so_insertion_request S c kw index =
      (<[kw := N.of_nat n]> c, SoUpdate (update_token S kw n) (xor_mask index (smask kw n))).
  Proof.
    intros E. unfold so_insertion_request. rewrite E.
    assert (Est : (if (N.of_nat n =? 0)%N then so_gen S (so_keyword_index S kw)
      else invert_mult S (so_gen S (so_keyword_index S kw)) (N.of_nat n)) = stok kw n).
    { unfold invert_mult. rewrite Nat2N.id. by destruct n. }
    rewrite Est. done.
  Qed.

  Lemma inv_ins h h' c db kw index d : no_collision S (h ++ SoIns kw index d :: h') ->
    few_insertions (h ++ SoIns kw index d :: h') -> inv h c db ->
    inv (h ++ [SoIns kw index d]) (so_insertion_request S c kw index).1
      (if d then so_insert db (so_insertion_request S c kw index).2 else db).
  Proof.
    intros Hnc Hfew [I1 I2 I3]. set (n := length (insertions kw h)).
    assert (Hlen : forall kw0, length (insertions kw0 (h ++ [SoIns kw index d])) <= length (insertions kw0 (h ++ SoIns kw index d :: h'))).
    { intros kw0. rewrite (cons_middle _ h h'), app_assoc, (insertions_app _ (h ++ _)), app_length. lia. }
    assert (Hn : length (insertions kw (h ++ [SoIns kw index d])) = Datatypes.S n).
    { rewrite insertions_snoc, decide_True, app_length by done. simpl. unfold n. lia. }
    assert (Hb : (N.of_nat n < 2 ^ 32)%N).
    { pose proof (Hfew kw). specialize (Hlen kw). lia. }
    assert (E : ctr_get_and_increment c kw = (<[kw := N.of_nat n]> c, N.of_nat n)).
    { unfold ctr_get_and_increment. rewrite I1. fold n. destruct n as [|m] eqn:En; [done|]. unfold next_value, incr32.
      rewrite N.mod_small by lia. replace (N.of_nat m + 1)%N with (N.of_nat (Datatypes.S m)) by lia. done. }
    rewrite (request_eq c kw index n E). cbn [fst snd].
    assert (Hfresh : db !! update_token S kw n = None).
    { destruct (db !! update_token S kw n) as [v|] eqn:Ev; [|done].
      destruct (I3 _ _ Ev) as (kw' & i & Hi & Et). exfalso.
      destruct (Hnc kw n kw' i) as [<- Ei]; [| |done|].
      - specialize (Hlen kw). lia.
      - specialize (Hlen kw'). rewrite insertions_snoc, app_length in Hlen. lia.
      - unfold n in Hi. lia. }
    split.
    - intros kw0. rewrite insertions_snoc. case_decide as Hk.
      + subst kw0. rewrite lookup_insert, app_length. simpl. rewrite Nat.add_1_r. done.
      + rewrite lookup_insert_ne by done. rewrite app_nil_r. apply I1.
    - intros kw0 i x Hx. pose proof (lookup_lt_Some _ _ _ Hx) as Hi.
      rewrite insertions_snoc in Hx. apply lookup_app_Some in Hx as [Hx|[Hge Hx]].
      + destruct d; [|by apply I2]. unfold so_insert. simpl. rewrite lookup_insert_ne; [by apply I2|].
        intros Et. destruct (Hnc kw n kw0 i) as [<- Ei]; [| |done|].
        * specialize (Hlen kw). lia.
        * specialize (Hlen kw0). lia.
        * pose proof (lookup_lt_Some _ _ _ Hx). unfold n in *. lia.
      + case_decide as Hk; [|done]. subst kw0. fold n in Hge, Hx.
        destruct (i - n) as [|?] eqn:Ei; [|done]. simpl in Hx. injection Hx as <-.
        assert (i = n) as -> by lia. simpl. destruct d; [|done]. unfold so_insert. simpl. by rewrite lookup_insert.
    - intros t v Ht.
      assert (Hold : forall t v, db !! t = Some v -> exists kw0 i, i < length (insertions kw0 (h ++ [SoIns kw index d])) /\ t = update_token S kw0 i).
      { intros t' v' Ht'. destruct (I3 _ _ Ht') as (kw' & i & Hi & Et). exists kw', i. split; [|done].
        rewrite insertions_snoc, app_length. lia. }
      destruct d; [|by eapply Hold]. unfold so_insert in Ht. simpl in Ht.
      apply lookup_insert_Some in Ht as [[<- _]|[_ Ht]]; [|by eapply Hold].
      exists kw, n. split; [lia|done].
  Qed.

  (** The loop of the search, from the token number [n-1] down. *)
  Lemma search_loop kw db : forall n,
    so_search_loop S n db (skey kw) (stok kw (n - 1)) =
      reverse (seq 0 n) ≫= fun i => so_access S db (skey kw) (stok kw i).
  Proof.
    induction n as [|n IH]; [done|]. cbn [so_search_loop].
    replace (Datatypes.S n - 1) with n by lia. rewrite seq_S, reverse_snoc.
    revert IH. generalize (reverse (seq 0 n)). intros R IH. csimpl. f_equal.
    rewrite <- IH. destruct n as [|n]; [done|]. f_equal.
    replace (Datatypes.S n - 1) with n by lia. apply Htdp.
  Qed.

  Lemma access_eq kw i db : so_access S db (skey kw) (stok kw i) =
    match db !! update_token S kw i with Some r => [xor_mask r (smask kw i)] | None => [] end.
  Proof. done. Qed.

  Lemma bind_omap (f : nat -> list N) (l : list (N * bool)) :
    (forall i x, l !! i = Some x -> f i = if x.2 : bool then [x.1] else []) ->
    reverse (seq 0 (length l)) ≫= f = omap (fun x => if x.2 : bool then Some x.1 else None) (reverse l).
  Proof.
    intros Hall. induction l as [|x l IH] using rev_ind; [done|].
    rewrite app_length. simpl. rewrite Nat.add_1_r, seq_S, !reverse_snoc.
    assert (IH' : reverse (seq 0 (length l)) ≫= f = omap (fun x => if x.2 : bool then Some x.1 else None) (reverse l)).
    { apply IH. intros i y Hy. apply Hall. by apply lookup_app_l_Some. }
    revert IH'. generalize (reverse (seq 0 (length l))), (reverse l). intros R L E. csimpl.
    rewrite (Hall (length l) x) by (apply list_lookup_middle; done). rewrite E. by destruct x.2.
  Qed.

  Lemma find_eq h c db kw : few_insertions h -> inv h c db ->
    so_server_search S db (so_search_request S c kw) = documents kw h.
  Proof.
    intros Hfew [I1 I2 _]. unfold so_search_request, ctr_get. rewrite I1.
    destruct (length (insertions kw h)) as [|n] eqn:En.
    - unfold so_server_search. simpl. unfold documents. apply nil_length_inv in En. by rewrite En.
    - unfold so_server_search. cbn [ss_count ss_key ss_token].
      pose proof (Hfew kw) as Hb. rewrite En in Hb.
      rewrite N.mod_small by lia. replace (N.to_nat (N.of_nat n + 1)) with (Datatypes.S n) by lia.
      unfold invert_mult. rewrite Nat2N.id.
      change (so_search_loop S (Datatypes.S n) db (skey kw) (stok kw n) = documents kw h).
      replace n with (Datatypes.S n - 1) at 2 by lia. rewrite search_loop. unfold documents.
      rewrite <- En. assert (Hall : forall i x, insertions kw h !! i = Some x ->
        so_access S db (skey kw) (stok kw i) = if x.2 : bool then [x.1] else []).
      { intros i x Hx. rewrite access_eq, (I2 _ _ _ Hx). destruct x.2; [|done]. by rewrite C53_sophos. }
      by apply bind_omap.
  Qed.

  Lemma run_eq ops : forall h c db, no_collision S (h ++ ops) -> few_insertions (h ++ ops) -> inv h c db ->
    so_run S c db ops = so_answers h ops.
  Proof.
    induction ops as [|o ops IH]; intros h c db Hnc Hfew I; [done|].
    destruct o as [kw i d|kw]; cbn [so_run so_answers].
    - apply IH; [by rewrite <- app_assoc..|]. by apply inv_ins with (h' := ops).
    - f_equal.
      + apply find_eq with (c := c); [|done]. intros kw0. specialize (Hfew kw0).
        rewrite insertions_app, app_length in Hfew. lia.
      + apply IH; [by rewrite <- app_assoc..|]. destruct I as [I1 I2 I3].
        assert (E : forall kw0, insertions kw0 (h ++ [SoFind kw]) = insertions kw0 h).
        { intros kw0. rewrite insertions_snoc. apply app_nil_r. }
        split; intros kw0; rewrite ?E; auto. intros v Hv. destruct (I3 _ _ Hv) as (kw' & i & Hi & Et).
        exists kw', i. by rewrite E.
  Qed.
End proofs.

(** ** Parallel searches *)
Section parallel.
  Variable S : sophos.
  Local Open Scope nat_scope.

  Definition toks (st : bytes) (i : nat) : bytes := Nat.iter i (so_eval S) st.
  Definition in_class (n idx i : nat) : Prop := i mod n = idx.
  Global Instance in_class_dec n idx i : Decision (in_class n idx i).
  Proof. unfold in_class. apply _. Defined.

  Lemma toks_add st i j : toks (toks st i) j = toks st (i + j).
  Proof. unfold toks. rewrite (Nat.add_comm i j). symmetry. apply Nat.iter_add. Qed.

  Lemma filter_seq_class n idx : 0 < n -> forall m i, i mod n = idx -> 0 < m ->
    filter (in_class n idx) (seq i m) = i :: filter (in_class n idx) (seq (i + n) (m - n)).
  Proof.
    intros Hn m i Hi Hm.
    assert (Hnone : forall k j, 0 < j -> j + k <= n -> filter (in_class n idx) (seq (i + j) k) = []).
    { induction k as [|k IH]; intros j Hj Hjk; [done|]. cbn [seq]. rewrite filter_cons_False.
      - rewrite <- Nat.add_succ_r. apply IH; lia.
      - unfold in_class. intros E. subst idx.
        assert (i mod n < n) by (apply Nat.mod_upper_bound; lia).
        pose proof (Nat.div_mod i n ltac:(lia)) as D.
        destruct (decide (i mod n + j < n)).
        + pose proof (Nat.mod_unique (i + j) n (i / n) (i mod n + j) ltac:(lia) ltac:(lia)). lia.
        + pose proof (Nat.mod_unique (i + j) n (i / n + 1) (i mod n + j - n) ltac:(lia) ltac:(lia)). lia. }
    destruct m as [|m]; [lia|]. cbn [seq]. rewrite filter_cons_True by done. f_equal.
    rewrite <- Nat.add_1_r. destruct (decide (m <= n - 1)) as [Hle|Hgt].
    - rewrite Hnone by lia. replace (Datatypes.S m - n) with 0 by lia. done.
    - replace m with ((n - 1) + (Datatypes.S m - n)) at 1 by lia. rewrite seq_app, filter_app, Hnone by lia.
      simpl. f_equal. f_equal. lia.
  Qed.

  Lemma rsa_loop_eq st n idx max : 0 < n -> forall fuel i,
    n <= i -> i mod n = idx -> max - i <= fuel ->
    rsa_loop S fuel (N.of_nat i) (N.of_nat max) (N.of_nat n) (toks st (i - n)) =
      Ok (toks st <$> filter (in_class n idx) (seq i (max - i))).
  Proof.
    intros Hn. induction fuel as [|fuel IH]; intros i Hni Hi Hf.
    - cbn [rsa_loop]. destruct (N.ltb_spec (N.of_nat i) (N.of_nat max)); [lia|].
      replace (max - i) with 0 by lia. done.
    - cbn [rsa_loop]. destruct (N.ltb_spec (N.of_nat i) (N.of_nat max)) as [Hlt|Hge].
      + rewrite (filter_seq_class n idx Hn) by (done || lia).
        unfold eval_mult. rewrite Nat2N.id. fold (toks (toks st (i - n)) n). rewrite toks_add.
        replace (i - n + n) with i by lia. rewrite <- Nat2N.inj_add.
        replace (toks st i) with (toks st (i + n - n)) at 1 by (f_equal; lia).
        rewrite IH; [|lia| |lia].
        * cbn [rbind]. rewrite fmap_cons. replace (max - i - n) with (max - (i + n)) by lia. done.
        * replace (i + n) with (i + 1 * n) by lia. by rewrite Nat.mod_add by lia.
      + replace (max - i) with 0 by lia. done.
  Qed.

  Lemma rsa_job_eq st n idx max : 0 < n -> idx < n ->
    rsa_job S st (N.of_nat idx) (N.of_nat max) (N.of_nat n) =
      Ok (toks st <$> filter (in_class n idx) (seq 0 max)).
  Proof.
    intros Hn Hidx. unfold rsa_job.
    assert (below : forall k, k <= idx -> filter (in_class n idx) (seq 0 k) = []).
    { induction k as [|k IH]; intros Hk; [done|]. rewrite seq_S, filter_app, IH by lia.
      rewrite filter_cons_False; [done|]. unfold in_class. rewrite Nat.mod_small by lia. simpl. lia. }
    assert (Est : (if (N.of_nat idx =? 0)%N then st else eval_mult S st (N.of_nat idx)) = toks st idx).
    { unfold eval_mult. rewrite Nat2N.id. by destruct idx. }
    rewrite Est. rewrite <- Nat2N.inj_add, Nat2N.id.
    replace (toks st idx) with (toks st (idx + n - n)) at 1 by (f_equal; lia).
    rewrite (rsa_loop_eq st n idx max Hn); [|lia| |lia].
    - cbn [rbind]. f_equal. destruct (N.ltb_spec (N.of_nat idx) (N.of_nat max)) as [Hlt|Hge].
      + replace max with (idx + (max - idx)) at 2 by lia. rewrite seq_app, filter_app.
        rewrite (below idx) by lia. simpl. rewrite (filter_seq_class n idx Hn _ idx); [|by apply Nat.mod_small|lia].
        replace (max - idx - n) with (max - (idx + n)) by lia. done.
      + replace (max - (idx + n)) with 0 by lia. simpl. rewrite (below max) by lia. done.
    - replace (idx + n) with (idx + 1 * n) by lia. rewrite Nat.mod_add by lia. by apply Nat.mod_small.
  Qed.

  Lemma rsa_jobs_eq st n max ts : 0 < n < 256 -> Forall (fun t => t < n) ts ->
    rsa_jobs S st (N.of_nat max) (N.of_nat n) (N.of_nat <$> ts) =
      Ok ((fun idx => toks st <$> filter (in_class n idx) (seq 0 max)) <$> ts).
  Proof.
    intros Hn. induction 1 as [|t ts Ht _ IH]; [done|]. csimpl.
    rewrite (N.mod_small (N.of_nat t)), (N.mod_small (N.of_nat n)) by (change (2 ^ 8)%N with 256%N; lia).
    rewrite rsa_job_eq by lia. cbn [rbind]. rewrite IH. done.
  Qed.

  Lemma classes_perm n l : 0 < n -> (seq 0 n ≫= fun idx => filter (in_class n idx) l) ≡ₚ l.
  Proof.
    intros Hn. induction l as [|x l IH].
    - clear. induction (seq 0 n); csimpl; done.
    - assert (Hx : x mod n < n) by (apply Nat.mod_upper_bound; lia).
      assert (E : forall m k, k <= x mod n < k + m ->
        (seq k m ≫= fun idx => filter (in_class n idx) (x :: l)) ≡ₚ x :: (seq k m ≫= fun idx => filter (in_class n idx) l)).
      { assert (E0 : forall m k, ~ (k <= x mod n < k + m) ->
          (seq k m ≫= fun idx => filter (in_class n idx) (x :: l)) = (seq k m ≫= fun idx => filter (in_class n idx) l)).
        { induction m as [|m IHm]; intros k Hk; [done|]. csimpl. rewrite IHm by lia.
          rewrite filter_cons_False; [done|]. unfold in_class. lia. }
        induction m as [|m IHm]; intros k Hk; [lia|]. csimpl.
        destruct (decide (k = x mod n)) as [->|Hne].
        - rewrite filter_cons_True by done. rewrite E0 by lia. done.
        - rewrite filter_cons_False by (unfold in_class; lia). rewrite IHm by lia. solve_Permutation. }
      etransitivity; [apply E; lia|]. by rewrite IH.
  Qed.

  Lemma search_loop_toks db key : forall n st,
    so_search_loop S n db key st = seq 0 n ≫= fun i => so_access S db key (toks st i).
  Proof.
    induction n as [|n IH]; intros st; [done|]. cbn [so_search_loop]. rewrite IH. simpl. f_equal.
    rewrite <- (fmap_S_seq 0 n). clear IH. induction (seq 0 n) as [|i l IH]; csimpl; [done|]. rewrite IH. f_equal.
    unfold toks. simpl. f_equal. clear. induction i as [|i IH]; simpl; [done|]. by rewrite IH.
  Qed.

  (** The tokens of the threads, all together, give what the sequential search gives. *)
  Lemma tokens_perm {B} (f : bytes -> list B) st n max : 0 < n ->
    (((fun idx => toks st <$> filter (in_class n idx) (seq 0 max)) <$> seq 0 n) ≫= fun l => l ≫= f) ≡ₚ
    seq 0 max ≫= fun i => f (toks st i).
  Proof.
    intros Hn.
    assert (E : forall ids, (((fun idx => toks st <$> filter (in_class n idx) (seq 0 max)) <$> ids) ≫= fun l => l ≫= f) =
      (ids ≫= fun idx => filter (in_class n idx) (seq 0 max)) ≫= fun i => f (toks st i)).
    { induction ids as [|idx ids IH]; csimpl; [done|]. rewrite bind_app, <- IH. f_equal.
      induction (filter (in_class n idx) (seq 0 max)) as [|i l IHl]; csimpl; [done|]. by rewrite IHl. }
    rewrite E. apply bind_Permutation. by apply classes_perm.
  Qed.
End parallel.
