(** Proofs about concurrent clients and servers. *)
From stdpp Require Import prelude gmap.
From Coq Require Import NArith Lia.
From Verif Require Import Base EncModel KvModel UtilsModel SophosModel DianaModel SophosSpec DianaSpec
  ConcModel ConcSpec SophosProofs DianaProofs Props_Utils.
Local Arguments N.modulo : simpl never.
Local Arguments N.pow : simpl never.
Local Arguments N.of_nat : simpl never.
Local Arguments N.to_nat : simpl never.

(** What the two schemes have in common. *)
Record proto_ok (P : proto) (token : bytes -> nat -> bytes) (unmask : bytes -> nat -> p_val P -> p_doc P)
    (acc : bytes -> nat -> p_acc P) (ok : p_doc P -> Prop) (order : nat -> list nat) : Prop := {
  po_token : forall kw i doc, (p_update P kw (N.of_nat i) doc).1 = token kw i;
  po_unmask : forall kw i doc, ok doc -> unmask kw i (p_update P kw (N.of_nat i) doc).2 = doc;
  po_none : forall kw, p_accesses P (p_request P kw None) = [];
  po_some : forall kw n, (N.of_nat (S n) < 2 ^ 32)%N ->
    p_accesses P (p_request P kw (Some (N.of_nat n))) = acc kw <$> order (S n);
  po_access : forall db kw i, p_access P db (acc kw i) =
    match db !! token kw i with Some v => [unmask kw i v] | None => [] end;
  po_order : forall n, order n ≡ₚ seq 0 n }.

Section proofs.
  Context {P : proto}.
  Notation lb := (label P).

  Lemma wrun_app ls1 ls2 : forall w, wrun (P := P) w (ls1 ++ ls2) = (w' ← wrun w ls1; wrun w' ls2).
  Proof. induction ls1 as [|l ls1 IH]; intros w; [done|]. simpl. destruct (wstep P w l); [apply IH|done]. Qed.
  Lemma wrun_snoc w ls l w' : wrun (P := P) w (ls ++ [l]) = Some w' ->
    exists w1, wrun w ls = Some w1 /\ wstep P w1 l = Some w'.
  Proof.
    rewrite wrun_app. destruct (wrun w ls) as [w1|]; [|done]. simpl. destruct (wstep P w1 l) as [w2|] eqn:E; [|done].
    simpl. intros [= <-]. by exists w1.
  Qed.

  Lemma put_docs_app kw (ls ls' : list lb) : put_docs kw (ls ++ ls') = put_docs kw ls ++ put_docs kw ls'.
  Proof. apply omap_app. Qed.
  Lemma arrived_app kw i (ls ls' : list lb) : arrived kw i (ls ++ ls') = arrived kw i ls || arrived kw i ls'.
  Proof. apply existsb_app. Qed.
  Lemma searches_app (ls ls' : list lb) : searches (ls ++ ls') = searches ls + searches ls'.
  Proof. unfold searches. by rewrite omap_app, app_length. Qed.
  Lemma always_app Q (ls ls' : list lb) : always Q (ls ++ ls') -> always Q ls.
  Proof. intros H ls1 ls2 w -> Hr. eapply (H ls1 (ls2 ++ ls')); [by rewrite app_assoc|done]. Qed.
  Lemma tokens_app token (ls ls' : list lb) : tokens_differ token (ls ++ ls') -> tokens_differ token ls.
  Proof. intros H kw i kw' i' Hi Hi'. apply H; rewrite put_docs_app, app_length; lia. Qed.
  Lemma few_app (ls ls' : list lb) : few_puts (ls ++ ls') -> few_puts ls.
  Proof. intros H kw. specialize (H kw). rewrite put_docs_app, app_length in H. lia. Qed.
  Lemma docs_app ok (ls ls' : list lb) : put_docs_ok ok (ls ++ ls') -> put_docs_ok ok ls.
  Proof. intros H kw. specialize (H kw). rewrite put_docs_app, Forall_app in H. tauto. Qed.

  Lemma take_message_spec kw v l m l' : take_message P kw v l = Some (m, l') ->
    m_kw P m = kw /\ m_ctr P m = v /\ m ∈ l /\ forall m', m' ∈ l' -> m' ∈ l.
  Proof.
    revert m l'. induction l as [|x l IH]; intros m l' E; [done|]. simpl in E. case_decide as Hd.
    - injection E as <- <-. destruct Hd. repeat split; try done; [by left|]. intros m' ?. by right.
    - destruct (take_message P kw v l) as [[m1 l1]|] eqn:E1; [|done]. injection E as <- <-.
      destruct (IH _ _ eq_refl) as (H1 & H2 & H3 & H4). repeat split; try done; [by right|].
      intros m' [->|Hm]%elem_of_cons; [by left|right; by apply H4].
  Qed.

  Section inv.
    Variables (token : bytes -> nat -> bytes) (unmask : bytes -> nat -> p_val P -> p_doc P)
      (acc : bytes -> nat -> p_acc P) (ok : p_doc P -> Prop) (order : nat -> list nat).
    Hypothesis HP : proto_ok P token unmask acc ok order.

    (** Invariant of the executions; [K] is a keyword with one thread at a time. *)
    Record winv (K : bytes) (ls : list lb) (w : world P) : Prop := {
      wi_ctr : w_ctr P w !! K = match length (put_docs K ls) with 0 => None | S n => Some (N.of_nat n) end;
      wi_ctr_any : forall kw v, w_ctr P w !! kw = Some v -> exists n, v = N.of_nat n /\ n < length (put_docs kw ls);
      wi_read : forall t doc todo v, w_threads P w !! t = Some (Thread P ((K, doc) :: todo) (Some v)) ->
        v = N.of_nat (length (put_docs K ls));
      wi_read_any : forall t kw doc todo v, w_threads P w !! t = Some (Thread P ((kw, doc) :: todo) (Some v)) ->
        exists n, v = N.of_nat n /\ n <= length (put_docs kw ls);
      wi_net : forall m, m ∈ w_net P w -> m_kw P m = K -> exists i doc, m_ctr P m = N.of_nat i /\
        put_docs K ls !! i = Some doc /\ (m_token P m, m_val P m) = p_update P K (N.of_nat i) doc;
      wi_net_any : forall m, m ∈ w_net P w -> exists i doc, m_ctr P m = N.of_nat i /\
        i < length (put_docs (m_kw P m) ls) /\ (m_token P m, m_val P m) = p_update P (m_kw P m) (N.of_nat i) doc;
      wi_arr : forall i, arrived K i ls = true -> i < length (put_docs K ls);
      wi_db : forall i doc, put_docs K ls !! i = Some doc ->
        w_db P w !! token K i =
          if arrived K i ls then Some (p_update P K (N.of_nat i) doc).2 else None;
      wi_dom : forall t v, w_db P w !! t = Some v -> exists kw i, i < length (put_docs kw ls) /\ t = token kw i;
      wi_searches : length (w_queries P w) = searches ls }.

    Lemma winv_start K : winv K [] (idle P).
    Proof.
      split; try done.
      - intros m Hm. by apply elem_of_nil in Hm.
      - intros m Hm. by apply elem_of_nil in Hm.
    Qed.

    Lemma next_count ls c kw : (N.of_nat (length (put_docs (P := P) kw ls)) < 2 ^ 32)%N ->
      c !! kw = match length (put_docs (P := P) kw ls) with 0 => None | S n => Some (N.of_nat n) end ->
      next_value (ctr_get c kw) = N.of_nat (length (put_docs kw ls)).
    Proof.
      intros Hb E. unfold ctr_get. rewrite E. destruct (length (put_docs kw ls)) as [|n]; [done|].
      unfold next_value, incr32. rewrite N.mod_small by lia. lia.
    Qed.
    Lemma next_count_any ls c kw : (N.of_nat (length (put_docs (P := P) kw ls)) < 2 ^ 32)%N ->
      (forall v, c !! kw = Some v -> exists n, v = N.of_nat n /\ n < length (put_docs (P := P) kw ls)) ->
      exists n, next_value (ctr_get c kw) = N.of_nat n /\ n <= length (put_docs kw ls).
    Proof.
      intros Hb E. unfold ctr_get. destruct (c !! kw) as [v|] eqn:Ev; [|exists 0; split; [done|lia]].
      destruct (E v eq_refl) as (n & -> & Hn). exists (S n). unfold next_value, incr32.
      rewrite N.mod_small by lia. split; lia.
    Qed.

    (** Steps that change neither the insertions nor the deliveries. *)
    Lemma winv_same K ls l (w : world P) : (forall kw, put_docs kw [l] = []) -> (forall kw i, arrived kw i [l] = false) ->
      searches [l] = 0 -> winv K ls w -> winv K (ls ++ [l]) w.
    Proof.
      intros Hp Ha Hs [I1 I1' I2 I2' I3 I3' I4 I5 I6 I7].
      assert (Ep : forall kw, put_docs kw (ls ++ [l]) = put_docs kw ls) by (intros; by rewrite put_docs_app, Hp, app_nil_r).
      assert (Ea : forall kw i, arrived kw i (ls ++ [l]) = arrived kw i ls) by (intros; by rewrite arrived_app, Ha, orb_false_r).
      split.
      - rewrite Ep. apply I1.
      - intros kw v. rewrite Ep. apply I1'.
      - intros t doc todo v. rewrite Ep. apply I2.
      - intros t kw doc todo v. rewrite Ep. apply I2'.
      - intros m Hm Hk. destruct (I3 m Hm Hk) as (i & doc & ?). exists i, doc. by rewrite Ep.
      - intros m Hm. destruct (I3' m Hm) as (i & doc & ?). exists i, doc. by rewrite Ep.
      - intros i. rewrite Ep, Ea. apply I4.
      - intros i doc. rewrite Ep, Ea. apply I5.
      - intros t v Hv. destruct (I6 t v Hv) as (kw & i & ?). exists kw, i. by rewrite Ep.
      - rewrite searches_app, Hs. lia.
    Qed.

    Lemma winv_step K ls l w w' : winv K ls w -> own_keyword K w ->
      tokens_differ token (ls ++ [l]) -> few_puts (ls ++ [l]) ->
      wstep P w l = Some w' -> winv K (ls ++ [l]) w'.
    Proof.
      intros I Hown Htok Hfew E. pose proof I as [I1 I1' I2 I2' I3 I3' I4 I5 I6 I7].
      destruct l as [job|t|t kw doc|kw v|kw v|kw ord|q j]; cbn [wstep] in E.
      - (* LSpawn *)
        injection E as <-. apply (winv_same K ls (LSpawn P job)) in I; [|done..]. destruct I as [J1 J1' J2 J2' J3 J3' J4 J5 J6 J7].
        split; try done; cbn [w_threads].
        + intros t doc todo v.
          intros [H|[_ H]]%lookup_app_Some; [by eapply J2|]. apply list_lookup_singleton_Some in H as [_ H]. discriminate H.
        + intros t kw doc todo v.
          intros [H|[_ H]]%lookup_app_Some; [by eapply J2'|]. apply list_lookup_singleton_Some in H as [_ H]. discriminate H.
      - (* LGet *)
        destruct (w_threads P w !! t) as [[[|[kw doc] todo] [r|]]|] eqn:Et; try done. injection E as <-.
        apply (winv_same K ls (LGet P t)) in I; [|done..]. destruct I as [J1 J1' J2 J2' J3 J3' J4 J5 J6 J7].
        split; try done; cbn [w_threads].
        + intros t' doc' todo' v.
          intros [(<- & H & _)|[_ H]]%list_lookup_insert_Some; [|by eapply J2].
          injection H as -> <- <- <-. specialize (Hfew K) as Hb. by apply next_count.
        + intros t' kw' doc' todo' v.
          intros [(<- & H & _)|[_ H]]%list_lookup_insert_Some; [|by eapply J2'].
          injection H as -> <- <- <-. specialize (Hfew kw') as Hb. apply next_count_any; [done|]. apply J1'.
      - (* LPut *)
        destruct (w_threads P w !! t) as [[[|[kw' doc'] todo] [v|]]|] eqn:Et; try done.
        case_decide as Hd; [|done]. destruct Hd as [-> ->]. injection E as <-.
        destruct (I2' _ _ _ _ _ Et) as (n & Hv & Hn).
        assert (HvK : kw = K -> n = length (put_docs K ls)).
        { intros ->. specialize (I2 _ _ _ _ Et). lia. }
        assert (Ep : forall k, put_docs k (ls ++ [LPut P t kw doc]) = put_docs k ls ++ if decide (kw = k) then [doc] else []).
        { intros k. rewrite put_docs_app. f_equal. unfold put_docs. csimpl. by case_decide. }
        assert (Ea : forall k i, arrived k i (ls ++ [LPut P t kw doc]) = arrived k i ls).
        { intros k i. rewrite arrived_app. apply orb_false_r. }
        assert (Hlook : forall k i d, put_docs k ls !! i = Some d -> put_docs k (ls ++ [LPut P t kw doc]) !! i = Some d).
        { intros k i d H. rewrite Ep. by apply lookup_app_l_Some. }
        assert (Hlen : length (put_docs kw (ls ++ [LPut P t kw doc])) = S (length (put_docs kw ls))).
        { rewrite Ep, decide_True, app_length by done. simpl. lia. }
        assert (Hmono : forall k, length (put_docs k ls) <= length (put_docs k (ls ++ [LPut P t kw doc]))).
        { intros k. rewrite Ep, app_length. lia. }
        split; cbn [w_ctr w_threads w_net w_db w_queries].
        + destruct (decide (kw = K)) as [->|Hne].
          * rewrite lookup_insert, Hlen. by rewrite Hv, HvK.
          * rewrite lookup_insert_ne by done. rewrite Ep, decide_False, app_nil_r by done. apply I1.
        + intros k v'. intros [[<- <-]|[Hne H]]%lookup_insert_Some.
          * exists n. split; [done|]. lia.
          * destruct (I1' _ _ H) as (n' & -> & Hn'). exists n'. split; [done|]. specialize (Hmono k). lia.
        + intros t' d todo' v'. intros [(<- & H & _)|[Hne H]]%list_lookup_insert_Some; [done|].
          destruct (decide (kw = K)) as [->|Hk].
          * exfalso. apply Hne. eapply Hown; [done..|left|left].
          * rewrite Ep, decide_False, app_nil_r by done. by eapply I2.
        + intros t' k d todo' v'. intros [(<- & H & _)|[Hne H]]%list_lookup_insert_Some; [done|].
          destruct (I2' _ _ _ _ _ H) as (n' & -> & Hn'). exists n'. split; [done|]. specialize (Hmono k). lia.
        + intros m [Hm|Hm]%elem_of_app Hk.
          * destruct (I3 m Hm Hk) as (i & d & H1 & H2 & H3). exists i, d. auto.
          * apply elem_of_list_singleton in Hm as ->. cbn [m_ctr m_kw m_token m_val] in *. exists n, doc. subst kw.
            split; [done|]. split; [|rewrite Hv; by destruct (p_update P K (N.of_nat n) doc)].
            rewrite Ep, decide_True by done. rewrite HvK by done. by apply list_lookup_middle.
        + intros m [Hm|Hm]%elem_of_app.
          * destruct (I3' m Hm) as (i & d & H1 & H2 & H3). exists i, d. specialize (Hmono (m_kw P m)). split_and!; [done|lia|done].
          * apply elem_of_list_singleton in Hm as ->. cbn [m_ctr m_kw m_token m_val] in *. exists n, doc.
            split; [done|]. split; [lia|]. rewrite Hv. by destruct (p_update P kw (N.of_nat n) doc).
        + intros i H. rewrite Ea in H. specialize (I4 _ H). specialize (Hmono K). lia.
        + intros i d H. rewrite Ea. rewrite Ep in H. apply lookup_app_Some in H as [H|[Hge H]]; [by apply I5|].
          case_decide as Hk; [|done]. subst kw. specialize (HvK eq_refl). rewrite <- HvK in Hge, H.
          destruct (i - n) as [|?] eqn:Ei; [|done].
          assert (i = n) as -> by lia. destruct (arrived K n ls) eqn:Harr; [apply I4 in Harr; lia|].
          destruct (w_db P w !! token K n) as [v'|] eqn:Ev; [|done].
          destruct (I6 _ _ Ev) as (k' & i' & Hi' & Etok). exfalso.
          destruct (Htok K n k' i') as [<- ?]; [| |done|lia].
          -- lia.
          -- specialize (Hmono k'). lia.
        + intros t' v' H. destruct (I6 _ _ H) as (k & i & Hi & ->). exists k, i. split; [|done]. specialize (Hmono k). lia.
        + rewrite searches_app, I7. unfold searches at 3. simpl. lia.
      - (* LDeliver *)
        destruct (take_message P kw v (w_net P w)) as [[m net]|] eqn:Em; [|done]. injection E as <-.
        apply take_message_spec in Em as (Hk & Hc & Hm & Hnet). destruct (I3' m Hm) as (n & doc & H1 & Hn & H3).
        rewrite Hk in Hn, H3. assert (v = N.of_nat n) as -> by congruence. pose proof (f_equal fst H3) as Etok. pose proof (f_equal snd H3) as Eval. cbn [fst snd] in Etok, Eval.
        assert (Ep : forall k, put_docs k (ls ++ [LDeliver P kw (N.of_nat n)]) = put_docs k ls).
        { intros k. rewrite put_docs_app. apply app_nil_r. }
        assert (Ea : forall k i, arrived k i (ls ++ [LDeliver P kw (N.of_nat n)]) = arrived k i ls || bool_decide (kw = k /\ n = i)).
        { intros k i. rewrite arrived_app. f_equal. unfold arrived. simpl. rewrite orb_false_r.
          apply bool_decide_ext. split; intros [-> ?]; split; auto; lia. }
        assert (Et : (p_update P kw (N.of_nat n) doc).1 = token kw n) by apply (po_token _ _ _ _ _ _ HP).
        split; cbn [w_ctr w_threads w_net w_db w_queries].
        + rewrite Ep. apply I1.
        + intros k v. rewrite Ep. apply I1'.
        + intros t' d todo' v'. rewrite Ep. apply I2.
        + intros t' k d todo' v'. rewrite Ep. apply I2'.
        + intros m' Hm' Hk'. destruct (I3 m' (Hnet _ Hm') Hk') as (i & d & ?). exists i, d. by rewrite Ep.
        + intros m' Hm'. destruct (I3' m' (Hnet _ Hm')) as (i & d & ?). exists i, d. by rewrite Ep.
        + intros i. rewrite Ep, Ea. intros [H|H]%orb_true_iff; [by apply I4|].
          apply bool_decide_eq_true in H as [-> ->]. done.
        + intros i d H. rewrite Ep in H. rewrite Ea, Etok, Et. destruct (decide (kw = K /\ n = i)) as [[-> <-]|Hne].
          * rewrite lookup_insert, bool_decide_true, orb_true_r by done.
            destruct (I3 m Hm Hk) as (i & d' & E1 & E2 & E3). assert (i = n) as -> by lia.
            rewrite H in E2. injection E2 as <-. by rewrite <- E3.
          * rewrite bool_decide_false, orb_false_r by done. rewrite lookup_insert_ne; [by apply I5|].
            intros E'. apply Hne. pose proof (lookup_lt_Some _ _ _ H).
            apply Htok in E'; [by destruct E'|rewrite Ep; lia..].
        + intros t' v' H. rewrite Etok, Et in H. apply lookup_insert_Some in H as [[<- _]|[_ H]].
          * exists kw, n. by rewrite Ep.
          * destruct (I6 _ _ H) as (k & i & ?). exists k, i. by rewrite Ep.
        + rewrite searches_app, I7. unfold searches at 3. simpl. lia.
      - (* LLose *)
        destruct (take_message P kw v (w_net P w)) as [[m net]|] eqn:Em; [|done]. injection E as <-.
        apply take_message_spec in Em as (_ & _ & _ & Hnet).
        apply (winv_same K ls (LLose P kw v)) in I; [|done..]. destruct I as [J1 J1' J2 J2' J3 J3' J4 J5 J6 J7].
        split; try done; cbn [w_net].
        + intros m' Hm' Hk'. apply J3; [apply Hnet, Hm'|done].
        + intros m' Hm'. apply J3', Hnet, Hm'.
      - (* LSearch *)
        injection E as <-.
        assert (Ep : forall k, put_docs k (ls ++ [LSearch P kw ord]) = put_docs k ls).
        { intros k. rewrite put_docs_app. apply app_nil_r. }
        assert (Ea : forall k i, arrived k i (ls ++ [LSearch P kw ord]) = arrived k i ls).
        { intros k i. rewrite arrived_app. apply orb_false_r. }
        split; cbn [w_ctr w_threads w_net w_db w_queries].
        + rewrite Ep. apply I1.
        + intros k v. rewrite Ep. apply I1'.
        + intros t' d todo' v'. rewrite Ep. apply I2.
        + intros t' k d todo' v'. rewrite Ep. apply I2'.
        + intros m' Hm' Hk'. destruct (I3 m' Hm' Hk') as (i & d & ?). exists i, d. by rewrite Ep.
        + intros m' Hm'. destruct (I3' m' Hm') as (i & d & ?). exists i, d. by rewrite Ep.
        + intros i. rewrite Ep, Ea. apply I4.
        + intros i d. rewrite Ep, Ea. apply I5.
        + intros t' v' H. destruct (I6 _ _ H) as (k & i & ?). exists k, i. by rewrite Ep.
        + rewrite app_length, searches_app, I7. done.
      - (* LAccess *)
        destruct (w_queries P w !! q) as [[kw ord pending results]|] eqn:Eq; [|done].
        destruct (ord && negb (j =? 0)); [done|]. destruct (pending !! j) as [a|]; [|done]. injection E as <-.
        apply (winv_same K ls (LAccess P q j)) in I; [|done..]. destruct I as [J1 J1' J2 J2' J3 J3' J4 J5 J6 J7].
        split; try done. cbn [w_queries]. by rewrite insert_length.
    Qed.

    Lemma winv_run K ls w : always (own_keyword K) ls -> tokens_differ token ls -> few_puts ls ->
      wrun (idle P) ls = Some w -> winv K ls w.
    Proof.
      revert w. induction ls as [|l ls IH] using rev_ind; intros w Hown Htok Hfew E.
      - injection E as <-. apply winv_start.
      - apply wrun_snoc in E as (w1 & E1 & E2). eapply winv_step; [| |done..|exact E2].
        + apply IH; [by eapply always_app|by eapply tokens_app|by eapply few_app|done].
        + by eapply (Hown ls [l]).
    Qed.

    (** The state of a search: [past] is what had happened when it started. *)
    Record qinv (past ls : list lb) (kw : bytes) (docs : list (p_doc P)) (q : query P) : Prop := {
      qi_kw : q_kw P q = kw;
      qi_state : exists (dn : list (nat * bool)) (todo : list nat),
        q_pending P q = acc kw <$> todo /\
        same_results (q_in_order P q) (dn.*1 ++ todo) (order (length docs)) /\
        q_results P q = omap (fun x => if x.2 : bool then docs !! x.1 else None) dn /\
        forall i b, (i, b) ∈ dn -> (arrived kw i past = true -> b = true) /\ (b = true -> arrived kw i ls = true) }.

    Lemma qinv_weaken past ls ls' kw docs q : qinv past ls kw docs q -> qinv past (ls ++ ls') kw docs q.
    Proof.
      intros [Hk (dn & todo & H1 & H2 & H3 & H4)]. split; [done|]. exists dn, todo. split_and!; try done.
      intros i b Hi. destruct (H4 i b Hi) as [Ha Hb]. split; [done|]. intros E. rewrite arrived_app, Hb by done. done.
    Qed.

    (** A search that starts. *)
    Lemma qinv_start past ls w kw ord : few_puts ls -> winv kw ls w ->
      qinv past ls kw (put_docs kw ls)
        (Query P kw ord (p_accesses P (p_request P kw (ctr_get (w_ctr P w) kw))) []).
    Proof.
      intros Hfew I. split; [done|]. exists [], (order (length (put_docs kw ls))). cbn [q_pending q_in_order q_results].
      split_and!.
      - unfold ctr_get. rewrite (wi_ctr _ _ _ I). destruct (length (put_docs kw ls)) as [|n] eqn:En.
        + rewrite (po_none _ _ _ _ _ _ HP). pose proof (po_order _ _ _ _ _ _ HP 0) as E. simpl in E.
          symmetry in E. apply Permutation_nil in E. by rewrite E.
        + apply (po_some _ _ _ _ _ _ HP). specialize (Hfew kw). by rewrite En in Hfew.
      - by destruct ord.
      - done.
      - intros i b Hi. by apply elem_of_nil in Hi.
    Qed.

    (** A look-up. *)
    Lemma qinv_access past ls ls' w kw docs q j a : winv kw (ls ++ ls') w -> put_docs_ok ok (ls ++ ls') -> docs = put_docs kw ls ->
      (forall i, arrived kw i past = true -> arrived kw i (ls ++ ls') = true) ->
      qinv past (ls ++ ls') kw docs q -> (q_in_order P q = true -> j = 0) -> q_pending P q !! j = Some a ->
      qinv past (ls ++ ls') kw docs (Query P (q_kw P q) (q_in_order P q) (delete j (q_pending P q)) (q_results P q ++ p_access P (w_db P w) a)).
    Proof.
      intros I Hok Ed Hpast [Hk (dn & todo & H1 & H2 & H3 & H4)] Hj Ha. split; [done|].
      rewrite H1, list_lookup_fmap in Ha. destruct (todo !! j) as [i|] eqn:Ei; [|done]. injection Ha as <-.
      exists (dn ++ [(i, arrived kw i (ls ++ ls'))]), (delete j todo). cbn [q_pending q_in_order q_results].
      assert (Hi : i < length docs).
      { assert (Hin : i ∈ dn.*1 ++ todo) by (apply elem_of_app; right; by eapply elem_of_list_lookup_2).
        assert (Hin' : i ∈ seq 0 (length docs)).
        { rewrite <- (po_order _ _ _ _ _ _ HP). destruct (q_in_order P q); simpl in H2; [by rewrite <- H2|by rewrite <- H2]. }
        apply elem_of_seq in Hin'. lia. }
      split_and!.
      - rewrite H1. by rewrite list_fmap_delete.
      - rewrite fmap_app. cbn [fmap list_fmap fst]. rewrite <- app_assoc. cbn [app].
        destruct (q_in_order P q); simpl in *.
        + rewrite Hj in * by done. destruct todo as [|i' todo]; [done|]. injection Ei as ->. simpl. done.
        + rewrite <- H2. f_equiv. symmetry. by apply delete_Permutation.
      - rewrite H3, omap_app. f_equal. rewrite (po_access _ _ _ _ _ _ HP).
        assert (exists doc, docs !! i = Some doc) as [doc Hdoc] by (by apply lookup_lt_is_Some).
        assert (Hdoc' : put_docs kw (ls ++ ls') !! i = Some doc).
        { rewrite put_docs_app. apply lookup_app_l_Some. by rewrite <- Ed. }
        rewrite (wi_db _ _ _ I _ _ Hdoc'). csimpl. destruct (arrived kw i (ls ++ ls')); [|done]. rewrite Hdoc.
        f_equal. rewrite (po_unmask _ _ _ _ _ _ HP); [done|].
        specialize (Hok kw). rewrite Forall_lookup in Hok. by eapply Hok.
      - intros i' b [Hi'|Hi']%elem_of_app; [by apply H4|]. apply elem_of_list_singleton in Hi'. injection Hi' as -> ->.
        split; [apply Hpast|done].
    Qed.

    (** What a step does to a search. *)
    Lemma wstep_query w l w' k q : wstep P w l = Some w' -> w_queries P w !! k = Some q ->
      w_queries P w' !! k = Some q /\ (forall j, l <> LAccess P k j) \/
      exists j a, l = LAccess P k j /\ (q_in_order P q = true -> j = 0) /\ q_pending P q !! j = Some a /\ w_db P w' = w_db P w /\
        w_queries P w' !! k = Some (Query P (q_kw P q) (q_in_order P q) (delete j (q_pending P q)) (q_results P q ++ p_access P (w_db P w) a)).
    Proof.
      intros E Hq. destruct l as [job|t|t kw doc|kw v|kw v|kw ord|k' j]; cbn [wstep] in E.
      - left. by injection E as <-.
      - left. destruct (w_threads P w !! t) as [[[|[kw doc] todo] [r|]]|]; try done. by injection E as <-.
      - left. destruct (w_threads P w !! t) as [[[|[kw' doc'] todo] [v|]]|]; try done.
        case_decide; [|done]. by injection E as <-.
      - left. destruct (take_message P kw v (w_net P w)) as [[m net]|]; [|done]. by injection E as <-.
      - left. destruct (take_message P kw v (w_net P w)) as [[m net]|]; [|done]. by injection E as <-.
      - left. injection E as <-. split; [|done]. cbn [w_queries]. by apply lookup_app_l_Some.
      - destruct (w_queries P w !! k') as [[kw ord pending results]|] eqn:Eq; [|done].
        destruct (ord && negb (j =? 0)) eqn:Eo; [done|]. destruct (pending !! j) as [a|] eqn:Ea; [|done]. injection E as <-.
        destruct (decide (k' = k)) as [->|Hne].
        + right. rewrite Hq in Eq. injection Eq as ->. exists j, a. cbn [w_queries w_db q_in_order q_pending q_kw q_results].
          split_and!; try done.
          * intros ->. destruct (Nat.eqb_spec j 0); [done|]. done.
          * apply list_lookup_insert. by eapply lookup_lt_Some.
        + left. cbn [w_queries]. rewrite list_lookup_insert_ne by done. split; [done|]. intros j' Ej. by injection Ej as -> _.
    Qed.

    Lemma quiet_run ls w w' k q : wrun w ls = Some w' -> w_queries P w !! k = Some q -> (forall j, LAccess P k j ∉ ls) ->
      w_queries P w' !! k = Some q.
    Proof.
      revert w. induction ls as [|l ls IH]; intros w E Hq Hn; [by injection E as <-|].
      simpl in E. destruct (wstep P w l) as [w1|] eqn:E1; [|done]. simpl in E.
      destruct (wstep_query _ _ _ _ _ E1 Hq) as [[Hq1 _]|(j & a & -> & _)].
      - eapply IH; [done..|]. intros j Hj. apply (Hn j). by right.
      - exfalso. apply (Hn j). left.
    Qed.

    Lemma qinv_run ls1 past ls3 w w' kw k q : let ls := past ++ ls3 in
      (exists ls0, past = ls1 ++ ls0) ->
      always (own_keyword kw) ls -> tokens_differ token ls -> few_puts ls -> put_docs_ok ok ls ->
      wrun (idle P) past = Some w -> wrun w ls3 = Some w' -> w_queries P w !! k = Some q ->
      qinv past past kw (put_docs kw ls1) q ->
      exists q', w_queries P w' !! k = Some q' /\ q_in_order P q' = q_in_order P q /\ qinv past ls kw (put_docs kw ls1) q'.
    Proof.
      intros ls [ls0 Epast] Hown Htok Hfew Hok Ew Ew' Hq HI. subst ls. revert w' Ew' Hown Htok Hfew Hok.
      induction ls3 as [|l ls3 IH] using rev_ind; intros w' Ew' Hown Htok Hfew Hok.
      - injection Ew' as <-. exists q. rewrite app_nil_r. done.
      - apply wrun_snoc in Ew' as (w1 & E1 & E2). rewrite app_assoc in *.
        destruct (IH w1 E1) as (q1 & Hq1 & Eo & HI1);
          [by eapply always_app|by eapply tokens_app|by eapply few_app|by eapply docs_app|].
        destruct (wstep_query _ _ _ _ _ E2 Hq1) as [[Hq2 _]|(j & a & -> & Hj & Ha & Edb & Hq2)].
        + exists q1. split; [done|]. split; [done|]. by apply qinv_weaken.
        + eexists. split; [exact Hq2|]. split; [done|]. apply qinv_weaken.
          assert (Hr : wrun (idle P) (past ++ ls3) = Some w1) by (rewrite wrun_app, Ew; exact E1).
          assert (Hrw : past ++ ls3 = ls1 ++ (ls0 ++ ls3)) by (by rewrite Epast, app_assoc).
          assert (HI' : winv kw (past ++ ls3) w1).
          { apply winv_run; [by eapply always_app|by eapply tokens_app|by eapply few_app|done]. }
          rewrite Hrw in HI1, HI' |- *. eapply qinv_access; try done.
          * rewrite <- Hrw. by eapply docs_app.
          * intros i Hi. rewrite <- Hrw, arrived_app, Hi. done.
    Qed.

    (** A finished search. *)
    Lemma qinv_done past ls kw docs q : qinv past ls kw docs q -> q_pending P q = [] ->
      exists see, same_results (q_in_order P q) (q_results P q) (seen see docs (order (length docs))) /\
        forall i, i < length docs -> (arrived kw i past = true -> see i = true) /\ (see i = true -> arrived kw i ls = true).
    Proof.
      intros [_ (dn & todo & H1 & H2 & H3 & H4)] Hp. rewrite H1 in Hp. apply fmap_nil_inv in Hp as ->.
      rewrite app_nil_r in H2. set (see := fun i => bool_decide ((i, true) ∈ dn)).
      assert (Hperm : dn.*1 ≡ₚ seq 0 (length docs)).
      { rewrite <- (po_order _ _ _ _ _ _ HP). by destruct (q_in_order P q); simpl in H2; [rewrite H2|]. }
      assert (Hnd : NoDup dn.*1) by (rewrite Hperm; apply NoDup_seq).
      exists see. split.
      - assert (E : q_results P q = seen see docs dn.*1).
        { rewrite H3. unfold seen. assert (Hsee : forall x, x ∈ dn -> see x.1 = x.2).
          { intros [i b] Hx. unfold see. cbn [fst snd]. destruct b; [by apply bool_decide_eq_true|].
            apply bool_decide_eq_false. intros Hx'.
            apply elem_of_list_lookup in Hx as (j & Hj). apply elem_of_list_lookup in Hx' as (j' & Hj').
            assert (j = j') as <-; [|congruence].
            eapply (NoDup_lookup dn.*1 j j' i); [done|by rewrite list_lookup_fmap, Hj|by rewrite list_lookup_fmap, Hj']. }
          revert Hsee. generalize see. clear. intros see Hsee. induction dn as [|x dn IH]; [done|]. csimpl.
          rewrite Hsee by left. rewrite IH; [done|]. intros y Hy. apply Hsee. by right. }
        rewrite E. destruct (q_in_order P q); simpl in *; [by rewrite H2|]. unfold seen. by apply omap_Permutation.
      - intros i Hi. assert (Hin : i ∈ dn.*1) by (rewrite Hperm; apply elem_of_seq; lia).
        apply elem_of_list_fmap in Hin as ([i' b] & -> & Hx). simpl in *. destruct (H4 _ _ Hx) as [Ha Hb]. split.
        + intros E. rewrite (Ha E) in Hx. unfold see. by apply bool_decide_eq_true.
        + unfold see. intros E. apply bool_decide_eq_true in E. by apply (H4 _ _ E).
    Qed.

    Theorem search_concurrent ls1 kw ord ls2 ls3 w q :
      let ls := ls1 ++ LSearch P kw ord :: ls2 ++ ls3 in
      let past := ls1 ++ LSearch P kw ord :: ls2 in
      wrun (idle P) ls = Some w ->
      always (own_keyword kw) ls -> tokens_differ token ls -> few_puts ls -> put_docs_ok ok ls ->
      w_queries P w !! searches ls1 = Some q -> (forall j, LAccess P (searches ls1) j ∉ ls2) -> q_pending P q = [] ->
      exists see, same_results ord (q_results P q) (seen see (put_docs kw ls1) (order (length (put_docs kw ls1)))) /\
        forall i, i < length (put_docs kw ls1) ->
          (arrived kw i past = true -> see i = true) /\ (see i = true -> arrived kw i ls = true).
    Proof.
      intros ls past Hr Hown Htok Hfew Hok Hq Hn Hp.
      assert (Els : ls = past ++ ls3) by (unfold ls, past; by rewrite <- app_assoc).
      rewrite Els in Hr, Hown, Htok, Hfew, Hok. rewrite wrun_app in Hr.
      destruct (wrun (idle P) past) as [w2|] eqn:E2; [|done]. simpl in Hr.
      pose proof E2 as E2'. unfold past in E2'. rewrite wrun_app in E2'. destruct (wrun (idle P) ls1) as [w1|] eqn:E1; [|done].
      simpl in E2'.
      assert (HI1 : winv kw ls1 w1).
      { unfold past in Hown, Htok, Hfew. rewrite <- app_assoc in Hown, Htok, Hfew.
        apply winv_run; [by eapply always_app|by eapply tokens_app|by eapply few_app|done]. }
      assert (Hq2 : w_queries P w2 !! searches ls1 =
        Some (Query P kw ord (p_accesses P (p_request P kw (ctr_get (w_ctr P w1) kw))) [])).
      { eapply quiet_run; [exact E2'| |done]. cbn [w_queries]. rewrite <- (wi_searches _ _ _ HI1). by apply list_lookup_middle. }
      assert (HQ : qinv past past kw (put_docs kw ls1)
        (Query P kw ord (p_accesses P (p_request P kw (ctr_get (w_ctr P w1) kw))) [])).
      { unfold past at 2. apply qinv_weaken, qinv_start; [|done]. unfold past in Hfew. rewrite <- app_assoc in Hfew.
        by eapply few_app. }
      destruct (qinv_run ls1 past ls3 w2 w kw (searches ls1) _ ltac:(by eexists) Hown Htok Hfew Hok E2 Hr Hq2 HQ)
        as (q' & Hq' & Eo & HI').
      rewrite Hq in Hq'. injection Hq' as <-. cbn [q_in_order] in Eo.
      destruct (qinv_done _ _ _ _ _ HI' Hp) as (see & Hs & Hsee). exists see. rewrite Eo in Hs. split; [done|].
      by rewrite Els.
    Qed.
  End inv.

  (** ** Loading an index *)
  Lemma jobs_app (ls ls' : list lb) : jobs (ls ++ ls') = jobs ls ++ jobs ls'.
  Proof. apply omap_app. Qed.

  Record linv (index : list (bytes * list (p_doc P))) (ls : list lb) (w : world P) : Prop := {
    li_len : length (w_threads P w) = length index;
    li_thread : forall t kw docs, index !! t = Some (kw, docs) -> exists rest r,
      w_threads P w !! t = Some (Thread P ((fun doc => (kw, doc)) <$> rest) r) /\ docs = put_docs kw ls ++ rest;
    li_other : forall kw, kw ∉ index.*1 -> put_docs kw ls = [] }.

  Lemma linv_run (ls : list lb) : forall w index, jobs ls = load_jobs index -> NoDup index.*1 -> wrun (idle P) ls = Some w -> linv index ls w.
  Proof.
    induction ls as [|l ls IH] using rev_ind; intros w index Hj Hnd E.
    - injection E as <-. symmetry in Hj. apply fmap_nil_inv in Hj as ->. split; try done.
    - apply wrun_snoc in E as (w1 & E1 & E2). rewrite jobs_app in Hj.
      assert (Hsame : jobs [l] = [] -> (forall kw, put_docs kw [l] = []) ->
        (forall t th, w_threads P w1 !! t = Some th -> exists r, w_threads P w !! t = Some (Thread P (th_todo P th) r)) ->
        length (w_threads P w) = length (w_threads P w1) -> linv index (ls ++ [l]) w).
      { intros Hl Hp Ht Hlen. rewrite Hl, app_nil_r in Hj. destruct (IH w1 index Hj Hnd E1) as [L1 L2 L3].
        assert (Ep : forall kw, put_docs kw (ls ++ [l]) = put_docs kw ls) by (intros; by rewrite put_docs_app, Hp, app_nil_r).
        split.
        - lia.
        - intros t kw docs Hi. destruct (L2 t kw docs Hi) as (rest & r & Hth & Ed).
          destruct (Ht _ _ Hth) as [r' Hr']. exists rest, r'. by rewrite Ep.
        - intros kw Hk. rewrite Ep. by apply L3. }
      destruct l as [job|t|t kw doc|kw v|kw v|kw ord|k j]; cbn [wstep] in E2.
      + injection E2 as <-. clear Hsame. cbn in Hj.
        destruct index as [|[kw docs] index _] using rev_ind; [by destruct (jobs ls)|].
        unfold load_jobs in Hj. rewrite fmap_app in Hj. cbn in Hj. apply app_inj_tail in Hj as [Hj Ejob].
        rewrite fmap_app in Hnd. apply NoDup_app in Hnd as (Hnd & Hnew & _).
        destruct (IH w1 index Hj Hnd E1) as [L1 L2 L3].
        assert (Ep : forall k, put_docs k (ls ++ [LSpawn P job]) = put_docs k ls).
        { intros k. rewrite put_docs_app. apply app_nil_r. }
        assert (Hkw : kw ∉ index.*1) by (intros H; apply (Hnew kw H); left).
        split; cbn [w_threads].
        * rewrite !app_length. simpl. lia.
        * intros t k ds [Hi|[Hge Hi]]%lookup_app_Some.
          -- destruct (L2 t k ds Hi) as (rest & r & Hth & Ed). exists rest, r. rewrite Ep. split; [|done].
             by apply lookup_app_l_Some.
          -- apply list_lookup_singleton_Some in Hi as [Ht Hi]. injection Hi as -> ->.
             exists ds, None. rewrite Ep, (L3 k Hkw). split; [|done]. rewrite Ejob.
             assert (t = length (w_threads P w1)) as -> by lia. by apply list_lookup_middle.
        * intros k Hk. rewrite Ep. apply L3. intros H. apply Hk. rewrite fmap_app. apply elem_of_app. by left.
      + destruct (w_threads P w1 !! t) as [[[|[kw doc] todo] [r|]]|] eqn:Et; try done. injection E2 as <-.
        apply Hsame; try done; cbn [w_threads].
        * intros t' th Hth. destruct (decide (t = t')) as [<-|Hne].
          -- rewrite Et in Hth. injection Hth as <-. eexists. apply list_lookup_insert. by eapply lookup_lt_Some.
          -- destruct th as [td rd]. exists rd. by rewrite list_lookup_insert_ne.
        * by rewrite insert_length.
      + clear Hsame. rewrite app_nil_r in Hj. destruct (IH w1 index Hj Hnd E1) as [L1 L2 L3].
        destruct (w_threads P w1 !! t) as [[[|[kw' doc'] todo] [v|]]|] eqn:Et; try done.
        case_decide as Hd; [|done]. destruct Hd as [-> ->]. injection E2 as <-.
        assert (Ep : forall k, put_docs k (ls ++ [LPut P t kw doc]) = put_docs k ls ++ if decide (kw = k) then [doc] else []).
        { intros k. rewrite put_docs_app. f_equal. unfold put_docs. csimpl. by case_decide. }
        assert (exists docs, index !! t = Some (kw, docs)) as [docs Hi].
        { assert (Hlt : t < length index) by (rewrite <- L1; by eapply lookup_lt_Some).
          apply lookup_lt_is_Some in Hlt as [[k docs] Hi]. destruct (L2 _ _ _ Hi) as (rest & r & Hth & _).
          rewrite Et in Hth. injection Hth as Eth _. destruct rest as [|d rest]; [done|]. injection Eth as -> _ _. by eexists. }
        split; cbn [w_threads].
        * by rewrite insert_length.
        * intros t' k ds Hi'. destruct (decide (t = t')) as [<-|Hne].
          -- rewrite Hi in Hi'. injection Hi' as <- <-. destruct (L2 _ _ _ Hi) as (rest & r & Hth & Ed).
             rewrite Et in Hth. injection Hth as Eth _. destruct rest as [|d rest]; [done|]. injection Eth as <- ->.
             exists rest, None. rewrite list_lookup_insert by (by eapply lookup_lt_Some). split; [done|].
             rewrite Ep, decide_True by done. by rewrite <- app_assoc.
          -- destruct (L2 _ _ _ Hi') as (rest & r & Hth & Ed). exists rest, r. rewrite list_lookup_insert_ne by done.
             split; [done|]. rewrite Ep, decide_False, app_nil_r; [done|]. intros <-. apply Hne.
             eapply (NoDup_lookup index.*1 t t' kw); [done|by rewrite list_lookup_fmap, Hi|by rewrite list_lookup_fmap, Hi'].
        * intros k Hk. rewrite Ep, L3, decide_False; [done| |done]. intros <-. apply Hk, elem_of_list_fmap.
          exists (kw, docs). split; [done|]. by eapply elem_of_list_lookup_2.
      + destruct (take_message P kw v (w_net P w1)) as [[m net]|]; [|done]. injection E2 as <-.
        apply Hsame; try done. intros t [td rd] Hth. by exists rd.
      + destruct (take_message P kw v (w_net P w1)) as [[m net]|]; [|done]. injection E2 as <-.
        apply Hsame; try done. intros t [td rd] Hth. by exists rd.
      + injection E2 as <-. apply Hsame; try done. intros t [td rd] Hth. by exists rd.
      + destruct (w_queries P w1 !! k) as [[kw ord pending results]|]; [|done].
        destruct (ord && negb (j =? 0)); [done|]. destruct (pending !! j) as [a|]; [|done]. injection E2 as <-.
        apply Hsame; try done. intros t [td rd] Hth. by exists rd.
  Qed.

  Lemma load_own (ls : list lb) index : jobs ls = load_jobs index -> NoDup index.*1 -> always own_keywords ls.
  Proof.
    intros Hj Hnd ls1 ls2 w -> Hr. rewrite jobs_app in Hj.
    assert (exists index1, jobs ls1 = load_jobs index1 /\ NoDup index1.*1) as (index1 & Hj1 & Hnd1).
    { exists (take (length (jobs ls1)) index). split.
      - unfold load_jobs. rewrite fmap_take. fold (load_jobs index). rewrite <- Hj. by rewrite take_app.
      - rewrite fmap_take. rewrite <- (take_drop (length (jobs ls1)) index.*1) in Hnd. by apply NoDup_app in Hnd as [? _]. }
    destruct (linv_run _ _ _ Hj1 Hnd1 Hr) as [L1 L2 _].
    assert (Hth : forall t th kw, w_threads P w !! t = Some th -> kw ∈ (th_todo P th).*1 -> index1.*1 !! t = Some kw).
    { intros t th kw Ht Hk. assert (Hlt : t < length index1) by (rewrite <- L1; by eapply lookup_lt_Some).
      apply lookup_lt_is_Some in Hlt as [[k docs] Hi]. destruct (L2 _ _ _ Hi) as (rest & r & Hth & _).
      rewrite Ht in Hth. injection Hth as ->. cbn [th_todo] in Hk. rewrite <- list_fmap_compose in Hk.
      apply elem_of_list_fmap in Hk as (d & -> & _). rewrite list_lookup_fmap, Hi. done. }
    intros kw t th t' th' Ht Ht' Hk Hk'. eapply (NoDup_lookup _ _ _ kw Hnd1); by eapply Hth.
  Qed.

  Lemma take_message_rest kw v l m l' m' : take_message P kw v l = Some (m, l') -> m' ∈ l ->
    (m_kw P m' = kw /\ m_ctr P m' = v) \/ m' ∈ l'.
  Proof.
    revert m l'. induction l as [|x l IH]; intros m l' E Hm; [done|]. simpl in E. case_decide as Hd.
    - injection E as <- <-. apply elem_of_cons in Hm as [->|Hm]; [by left|by right].
    - destruct (take_message P kw v l) as [[m1 l1]|] eqn:E1; [|done]. injection E as <- <-.
      apply elem_of_cons in Hm as [->|Hm]; [right; by left|].
      destruct (IH _ _ eq_refl Hm); [by left|right; by right].
  Qed.

  (** An insertion has arrived, is on its way, or is lost. *)
  Lemma on_its_way token unmask acc ok order (HP : proto_ok P token unmask acc ok order) (kw : bytes) (ls : list lb) :
    forall w, always (own_keyword kw) ls -> tokens_differ token ls -> few_puts ls -> none_lost ls -> wrun (idle P) ls = Some w ->
    forall i, i < length (put_docs kw ls) ->
      arrived kw i ls = true \/ exists m, m ∈ w_net P w /\ m_kw P m = kw /\ m_ctr P m = N.of_nat i.
  Proof.
    induction ls as [|l ls IH] using rev_ind; intros w Hown Htok Hfew Hlost E i Hi; [simpl in Hi; lia|].
    apply wrun_snoc in E as (w1 & E1 & E2).
    assert (IH' : i < length (put_docs kw ls) -> arrived kw i ls = true \/
      exists m, m ∈ w_net P w1 /\ m_kw P m = kw /\ m_ctr P m = N.of_nat i).
    { apply IH; [by eapply always_app|by eapply tokens_app|by eapply few_app| |done].
      intros k v H. apply (Hlost k v), elem_of_app. by left. }
    assert (Hkeep : put_docs kw [l] = [] -> w_net P w = w_net P w1 -> arrived kw i (ls ++ [l]) = true \/
      exists m, m ∈ w_net P w /\ m_kw P m = kw /\ m_ctr P m = N.of_nat i).
    { intros Hp Hnet. rewrite put_docs_app, Hp, app_nil_r in Hi. rewrite Hnet.
      destruct (IH' Hi) as [Ha|?]; [left|by right]. rewrite arrived_app, Ha. done. }
    destruct l as [job|t|t kw0 doc|kw0 v|kw0 v|kw0 ord|k j]; cbn [wstep] in E2.
    - injection E2 as <-. by apply Hkeep.
    - destruct (w_threads P w1 !! t) as [[[|[kw0 doc] todo] [r|]]|] eqn:Et; try done. injection E2 as <-. by apply Hkeep.
    - assert (HI : winv token kw ls w1).
      { apply (winv_run _ _ _ _ _ HP); [by eapply always_app|by eapply tokens_app|by eapply few_app|done]. }
      destruct (w_threads P w1 !! t) as [[[|[kw' doc'] todo] [v|]]|] eqn:Et; try done.
      case_decide as Hd; [|done]. destruct Hd as [-> ->]. injection E2 as <-. cbn [w_net].
      rewrite put_docs_app, app_length in Hi.
      destruct (decide (i < length (put_docs kw ls))) as [Hlt|Hge].
      + destruct (IH' Hlt) as [Ha|(m & Hm & ?)]; [left; by rewrite arrived_app, Ha|right].
        exists m. split; [|done]. apply elem_of_app. by left.
      + right. unfold put_docs at 2 in Hi. csimpl in Hi. case_decide as Hk; [|simpl in Hi; lia]. subst kw0. simpl in Hi.
        pose proof (wi_read _ _ _ _ HI _ _ _ _ Et) as Hv.
        eexists. split; [apply elem_of_app; right; left|]. cbn [m_kw m_ctr]. split; [done|]. rewrite Hv. f_equal. lia.
    - destruct (take_message P kw0 v (w_net P w1)) as [[m net]|] eqn:Em; [|done]. injection E2 as <-. cbn [w_net].
      rewrite put_docs_app, app_nil_r in Hi. destruct (IH' Hi) as [Ha|(m' & Hm' & Hk & Hc)].
      + left. rewrite arrived_app, Ha. done.
      + destruct (take_message_rest _ _ _ _ _ _ Em Hm') as [[E1' E2']|Hin]; [left|right; by exists m'].
        rewrite arrived_app. apply orb_true_iff. right. unfold arrived. simpl.
        rewrite orb_false_r. apply bool_decide_eq_true. split; congruence.
    - exfalso. apply (Hlost kw0 v), elem_of_app. right. left.
    - injection E2 as <-. by apply Hkeep.
    - destruct (w_queries P w1 !! k) as [[kw' ord pending results]|]; [|done].
      destruct (ord && negb (j =? 0)); [done|]. destruct (pending !! j) as [a|]; [|done]. injection E2 as <-. by apply Hkeep.
  Qed.

  Lemma load_prefix (ls : list lb) w index kw docs : jobs ls = load_jobs index -> NoDup index.*1 -> wrun (idle P) ls = Some w ->
    (kw, docs) ∈ index -> exists rest, docs = put_docs kw ls ++ rest.
  Proof.
    intros Hj Hnd Hr Hin. destruct (linv_run _ _ _ Hj Hnd Hr) as [L1 L2 _].
    apply elem_of_list_lookup in Hin as [t Ht]. destruct (L2 _ _ _ Ht) as (rest & r & _ & E). by exists rest.
  Qed.

  Lemma seen_all {A} see (docs : list A) order : (forall i, i < length docs -> see i = true) ->
    Forall (fun i => i < length docs) order -> seen see docs order = omap (fun i => docs !! i) order.
  Proof.
    intros Hs. unfold seen. induction 1 as [|i order Hi _ IH]; [done|]. csimpl. rewrite Hs by done. by rewrite IH.
  Qed.
  Lemma omap_lookup_seq {A} (docs : list A) : forall pre, omap (fun i => (pre ++ docs) !! i) (seq (length pre) (length docs)) = docs.
  Proof.
    induction docs as [|d docs IH]; intros pre; [done|]. cbn [length seq]. csimpl.
    rewrite list_lookup_middle by done. f_equal. specialize (IH (pre ++ [d])).
    rewrite <- app_assoc, app_length in IH. simpl in IH. by rewrite Nat.add_1_r in IH.
  Qed.
  Lemma omap_reverse {A B} (f : A -> option B) l : omap f (reverse l) = reverse (omap f l).
  Proof.
    induction l as [|x l IH]; [done|]. rewrite reverse_cons, omap_app, IH. csimpl.
    destruct (f x); [by rewrite reverse_cons|by rewrite app_nil_r].
  Qed.
End proofs.

(** ** Sophos *)
Section sophos.
  Variable S : sophos.
  Hypothesis Htdp : tdp_ok S.

  Lemma so_tokens_eq kw n : so_tokens S n (stok S kw (n - 1)) = stok S kw <$> reverse (seq 0 n).
  Proof.
    induction n as [|n IH]; [done|]. cbn [so_tokens]. replace (Datatypes.S n - 1) with n by lia.
    rewrite seq_S, reverse_snoc. revert IH. generalize (reverse (seq 0 n)). intros R IH. csimpl. f_equal. rewrite <- IH.
    destruct n as [|n]; [done|]. f_equal. replace (Datatypes.S n - 1) with n by lia. apply Htdp.
  Qed.

  Lemma so_proto_ok : proto_ok (so_proto S) (update_token S) (fun kw i v => xor_mask v (smask S kw i))
    (fun kw i => (skey S kw, stok S kw i)) (fun _ => True) newest_first.
  Proof.
    assert (Hu : forall kw i doc, so_make_update S kw (N.of_nat i) doc = (update_token S kw i, xor_mask doc (smask S kw i))).
    { intros kw i doc. unfold so_make_update.
      assert (Est : (if (N.of_nat i =? 0)%N then so_gen S (so_keyword_index S kw)
        else invert_mult S (so_gen S (so_keyword_index S kw)) (N.of_nat i)) = stok S kw i).
      { unfold invert_mult. rewrite Nat2N.id. by destruct i. }
      by rewrite Est. }
    split; cbn [so_proto p_update p_request p_accesses p_access p_doc p_val].
    - intros kw i doc. by rewrite Hu.
    - intros kw i doc _. rewrite Hu. apply C53_sophos.
    - done.
    - intros kw n Hb. unfold so_make_request, so_accesses. cbn [ss_key ss_count ss_token].
      rewrite N.mod_small by lia. replace (N.to_nat (N.of_nat n + 1)) with (Datatypes.S n) by lia.
      unfold invert_mult. rewrite Nat2N.id.
      change (Nat.iter n (so_inv S) (so_gen S (so_keyword_index S kw))) with (stok S kw n).
      replace n with (Datatypes.S n - 1) at 2 by lia. rewrite so_tokens_eq, <- list_fmap_compose. done.
    - done.
    - intros n. unfold newest_first. by rewrite reverse_Permutation.
  Qed.
End sophos.

(** ** Diana *)
Section diana.
  Variable D : diana.
  Hypothesis Hd : d_crypto_ok D.

  Lemma d_proto_ok : proto_ok (d_proto D) (d_update_token D) (fun kw i v => diana_xor_mask v (dmask D kw i))
    (fun kw i => d_leaf D (d_root D (d_keyword_index D kw)) (N.of_nat i)) (fun doc => length doc = d_len D) oldest_first.
  Proof.
    split; cbn [d_proto p_update p_request p_accesses p_access p_doc p_val].
    - done.
    - intros kw i doc Hl. cbn. apply C53_diana. unfold dmask. by rewrite (dc_prg _ Hd).
    - done.
    - intros kw n Hb. unfold d_make_request, d_accesses. cbn [ds_count ds_con].
      rewrite N.mod_small by lia. destruct (N.eqb_spec (N.of_nat n + 1) 0); [lia|].
      pose proof (eval_range_eq D (d_constrain D (d_root D (d_keyword_index D kw)) 0 (N.of_nat n)) 0 n) as E.
      rewrite (dc_max _ Hd) in *. change 0%N with (N.of_nat 0) at 2. rewrite E by lia.
      rewrite Nat.sub_0_r. unfold oldest_first. rewrite <- list_fmap_compose. apply list_fmap_ext. intros j i Hi. apply lookup_seq in Hi as [-> Hi].
      unfold leaf. simpl. apply (dc_eval _ Hd). lia.
    - intros db kw i. unfold d_get_unmask, d_retrieve_entry. cbn.
      change (d_prg D (d_leaf D (d_root D (d_keyword_index D kw)) (N.of_nat i)) 0 16) with (d_update_token D kw i).
      by destruct (db !! d_update_token D kw i).
    - intros n. done.
  Qed.
End diana.
