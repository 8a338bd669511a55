(** Proofs about threads that insert lists of pairs, and about the lists of the generator. *)
From stdpp Require Import prelude gmap strings.
From Coq Require Import NArith Lia.
From Verif Require Import Base EncModel KvModel UtilsModel SophosModel DianaModel SophosSpec DianaSpec
  ConcModel ConcSpec ConcProofs DbGenModel GenClientModel GenClientSpec.
Local Arguments N.modulo : simpl never.
Local Arguments N.pow : simpl never.
Local Arguments N.of_nat : simpl never.
Local Arguments N.to_nat : simpl never.

Lemma docs_for_app {K A} `{EqDecision K} (k : K) (l l' : list (K * A)) : docs_for k (l ++ l') = docs_for k l ++ docs_for k l'.
Proof. apply omap_app. Qed.
Lemma docs_for_elem {K A} `{EqDecision K} (k : K) (l : list (K * A)) d : d ∈ docs_for k l <-> (k, d) ∈ l.
Proof.
  unfold docs_for. rewrite elem_of_list_omap. split.
  - intros ([k' d'] & Hx & E). simpl in E. case_decide; [|done]. injection E as <-. by subst.
  - intros Hx. exists (k, d). split; [done|]. simpl. by rewrite decide_True.
Qed.
Lemma docs_for_nil {K A} `{EqDecision K} (k : K) (l : list (K * A)) : k ∉ l.*1 -> docs_for k l = [].
Proof.
  intros Hk. destruct (docs_for k l) as [|d ds] eqn:E; [done|]. exfalso. apply Hk.
  assert (H : d ∈ docs_for k l) by (rewrite E; left). apply docs_for_elem in H.
  apply elem_of_list_fmap. by exists (k, d).
Qed.
Lemma docs_for_perm {K A} `{EqDecision K} (k : K) (l l' : list (K * A)) : l ≡ₚ l' -> docs_for k l ≡ₚ docs_for k l'.
Proof. apply omap_Permutation. Qed.

Lemma mjoin_app {A} (a b : list (list A)) : mjoin (a ++ b) = mjoin a ++ mjoin b.
Proof. induction a as [|x a IH]; [done|]. simpl. rewrite <- app_assoc. by f_equal. Qed.

Section jobs.
  Context {P : proto}.
  Notation lb := (label P).

  (** What a thread has inserted; what all of them have. *)
  Definition puts (t : nat) (ls : list lb) : list (bytes * p_doc P) :=
    omap (fun l => match l with LPut _ t' kw doc => if decide (t' = t) then Some (kw, doc) else None | _ => None end) ls.
  Definition all_puts (ls : list lb) : list (bytes * p_doc P) :=
    omap (fun l => match l with LPut _ _ kw doc => Some (kw, doc) | _ => None end) ls.
  Lemma puts_app t (ls ls' : list lb) : puts t (ls ++ ls') = puts t ls ++ puts t ls'.
  Proof. apply omap_app. Qed.
  Lemma put_docs_for kw (ls : list lb) : put_docs kw ls = docs_for kw (all_puts ls).
  Proof.
    unfold put_docs, docs_for, all_puts. induction ls as [|l ls IH]; [done|]. csimpl. rewrite IH.
    destruct l; try done.
  Qed.

  Record tinv (ls : list lb) (w : world P) : Prop := {
    ti_len : length (w_threads P w) = length (jobs ls);
    ti_job : forall t th, w_threads P w !! t = Some th -> jobs ls !! t = Some (puts t ls ++ th_todo P th);
    ti_puts : forall t, length (w_threads P w) <= t -> puts t ls = [] }.

  Lemma tinv_run (ls : list lb) : forall w, wrun (idle P) ls = Some w -> tinv ls w.
  Proof.
    induction ls as [|l ls IH] using rev_ind; intros w E.
    - injection E as <-. by split.
    - apply wrun_snoc in E as (w1 & E1 & E2). destruct (IH w1 E1) as [L1 L2 L3]. clear IH.
      assert (Hsame : jobs [l] = [] -> (forall t, puts t [l] = []) ->
        (forall t th, w_threads P w !! t = Some th -> exists r, w_threads P w1 !! t = Some (Thread P (th_todo P th) r)) ->
        length (w_threads P w) = length (w_threads P w1) -> tinv (ls ++ [l]) w).
      { intros Hl Hp Ht Hlen. rewrite <- Hlen in *.
        assert (Ep : forall t, puts t (ls ++ [l]) = puts t ls) by (intros; by rewrite puts_app, Hp, app_nil_r).
        assert (Ej : jobs (ls ++ [l]) = jobs ls) by (by rewrite jobs_app, Hl, app_nil_r).
        split; rewrite ?Ej.
        - done.
        - intros t th Hth. destruct (Ht _ _ Hth) as [r Hr]. rewrite (L2 _ _ Hr), Ep. done.
        - intros t Hlt. rewrite Ep. by apply L3. }
      destruct l as [job|t|t kw doc|kw v|kw v|kw ord|k j]; cbn [wstep] in E2.
      + injection E2 as <-. clear Hsame.
        assert (Ep : forall k, puts k (ls ++ [LSpawn P job]) = puts k ls).
        { intros k. rewrite puts_app. apply app_nil_r. }
        split; cbn [w_threads]; rewrite ?jobs_app, ?app_length.
        * simpl. lia.
        * intros t th [Hth|[Hge Hth]]%lookup_app_Some.
          -- rewrite Ep. apply lookup_app_l_Some. by apply L2.
          -- apply list_lookup_singleton_Some in Hth as [Ht <-]. rewrite Ep, (L3 t) by lia. cbn [th_todo app].
             assert (t = length (jobs ls)) as -> by lia. by apply list_lookup_middle.
        * intros t Ht. rewrite Ep. apply L3. lia.
      + destruct (w_threads P w1 !! t) as [[[|[kw doc] todo] [r|]]|] eqn:Et; try done. injection E2 as <-.
        apply Hsame; try done; cbn [w_threads].
        * intros t' th [(<- & <- & _)|[Hne Hth]]%list_lookup_insert_Some.
          -- by eexists.
          -- destruct th as [td rd]. by exists rd.
        * by rewrite insert_length.
      + clear Hsame. destruct (w_threads P w1 !! t) as [[[|[kw' doc'] todo] [v|]]|] eqn:Et; try done.
        case_decide as Hd; [|done]. destruct Hd as [-> ->]. injection E2 as <-.
        assert (Ep : forall k, puts k (ls ++ [LPut P t kw doc]) = puts k ls ++ if decide (t = k) then [(kw, doc)] else []).
        { intros k. rewrite puts_app. f_equal. unfold puts. csimpl. by case_decide. }
        split; cbn [w_threads]; rewrite ?jobs_app, ?insert_length, ?app_nil_r.
        * done.
        * intros t' th [(<- & <- & _)|[Hne Hth]]%list_lookup_insert_Some.
          -- rewrite Ep, decide_True by done. cbn [th_todo]. rewrite <- app_assoc. by apply L2 in Et.
          -- rewrite Ep, decide_False, app_nil_r by done. by apply L2.
        * intros t' Ht'. rewrite Ep, decide_False, app_nil_r; [by apply L3|]. intros <-.
          apply lookup_lt_Some in Et. lia.
      + destruct (take_message P kw v (w_net P w1)) as [[m net]|]; [|done]. injection E2 as <-.
        apply Hsame; try done. intros t [td rd] Hth. by exists rd.
      + destruct (take_message P kw v (w_net P w1)) as [[m net]|]; [|done]. injection E2 as <-.
        apply Hsame; try done. intros t [td rd] Hth. by exists rd.
      + injection E2 as <-. apply Hsame; try done. intros t [td rd] Hth. by exists rd.
      + destruct (w_queries P w1 !! k) as [[kw ord pending results]|]; [|done].
        destruct (ord && negb (j =? 0)%nat); [done|]. destruct (pending !! j) as [a|]; [|done]. injection E2 as <-.
        apply Hsame; try done. intros t [td rd] Hth. by exists rd.
  Qed.

  (** The insertions, thread by thread. *)
  Lemma mjoin_cons_one {A} (f g : nat -> list A) x t n : t < n -> (forall k, g k = if decide (t = k) then x :: f k else f k) ->
    mjoin (g <$> seq 0 n) ≡ₚ x :: mjoin (f <$> seq 0 n).
  Proof.
    intros Ht Hg. assert (H : forall b, mjoin (g <$> seq b n) ≡ₚ (if decide (b <= t < b + n) then [x] else []) ++ mjoin (f <$> seq b n)).
    { clear Ht. induction n as [|n IH]; intros b.
      - rewrite decide_False by lia. done.
      - cbn [seq fmap list_fmap mjoin list_join]. rewrite IH, Hg. destruct (decide (t = b)) as [->|Hne].
        + rewrite decide_False, decide_True by lia. done.
        + destruct (decide (S b <= t < S b + n)) as [Hb|Hb].
          * rewrite decide_True by lia. apply Permutation_app_swap_app.
          * rewrite decide_False by lia. done. }
    rewrite H, decide_True by lia. done.
  Qed.
  Lemma all_puts_perm n (ls : list lb) : (forall t, n <= t -> puts t ls = []) ->
    all_puts ls ≡ₚ mjoin ((fun t => puts t ls) <$> seq 0 n).
  Proof.
    induction ls as [|l ls IH]; intros Hn.
    - simpl. clear. generalize 0. induction n as [|n IH]; intros b; [done|]. simpl. apply IH.
    - assert (Hn' : forall t, n <= t -> puts t ls = []).
      { intros t Ht. specialize (Hn t Ht). unfold puts in *. csimpl in Hn. destruct l; try done. by case_decide. }
      destruct l as [job|t|t kw doc|kw v|kw v|kw ord|k j]; try exact (IH Hn').
      assert (Ht : t < n).
      { destruct (decide (t < n)) as [H|H]; [done|]. specialize (Hn t ltac:(lia)). unfold puts in Hn. csimpl in Hn.
        rewrite decide_True in Hn by done. done. }
      change (all_puts (LPut P t kw doc :: ls)) with ((kw, doc) :: all_puts ls). rewrite (IH Hn'). symmetry.
      apply (mjoin_cons_one (fun k => puts k ls) _ (kw, doc) t); [done|].
      intros k. unfold puts. csimpl. by case_decide.
  Qed.

  (** Nothing is inserted that is not in a job. *)
  Lemma puts_jobs kw (ls : list lb) w : wrun (idle P) ls = Some w -> put_docs kw ls ⊆+ docs_for kw (mjoin (jobs ls)).
  Proof.
    intros Hr. destruct (tinv_run _ _ Hr) as [L1 L2 L3]. rewrite put_docs_for.
    rewrite (docs_for_perm kw _ _ (all_puts_perm _ _ L3)). rewrite L1.
    assert (H : forall js ps : list (list (bytes * p_doc P)), length js = length ps -> (forall t j p, js !! t = Some j -> ps !! t = Some p -> exists r, j = p ++ r) ->
      docs_for kw (mjoin ps) ⊆+ docs_for kw (mjoin js)).
    { clear. induction js as [|j js IH]; intros [|p ps] Hl H; try done. cbn [mjoin list_join]. rewrite !docs_for_app.
      destruct (H 0 j p eq_refl eq_refl) as [r ->]. apply submseteq_app.
      - rewrite docs_for_app. apply submseteq_inserts_r. done.
      - apply IH; [by injection Hl|]. intros t j' p' Hj Hp. by apply (H (S t)). }
    apply H; [by rewrite fmap_length, seq_length|].
    intros t j p Hj Hp. apply list_lookup_fmap_inv in Hp as (t' & -> & Ht'). apply lookup_seq in Ht' as [-> Ht].
    rewrite <- L1 in Ht. apply lookup_lt_is_Some in Ht as [th Hth]. specialize (L2 _ _ Hth).
    exists (th_todo P th). simpl in *. congruence.
  Qed.

  (** A keyword of one job is inserted by one thread. *)
  Lemma one_job_own kw (ls : list lb) : one_job kw (jobs ls) -> always (own_keyword kw) ls.
  Proof.
    intros H1 ls1 ls2 w -> Hr. destruct (tinv_run _ _ Hr) as [L1 L2 L3].
    intros t th t' th' Ht Ht' Hk Hk'. rewrite jobs_app in H1.
    eapply H1; [apply lookup_app_l_Some, L2, Ht|apply lookup_app_l_Some, L2, Ht'|..];
      rewrite fmap_app; apply elem_of_app; by right.
  Qed.
  Lemma one_job_puts kw (ls : list lb) w t job : one_job kw (jobs ls) -> wrun (idle P) ls = Some w ->
    jobs ls !! t = Some job -> kw ∈ job.*1 -> put_docs kw ls = docs_for kw (puts t ls).
  Proof.
    intros H1 Hr Hj Hk. destruct (tinv_run _ _ Hr) as [L1 L2 L3].
    assert (H : forall t' d, (kw, d) ∈ puts t' ls -> t' = t).
    { intros t' d Hin. destruct (decide (t' < length (w_threads P w))) as [Hlt|Hge]; [|rewrite (L3 t') in Hin by lia; by apply elem_of_nil in Hin].
      apply lookup_lt_is_Some in Hlt as [th Hth]. eapply H1; [by apply L2|exact Hj| |exact Hk].
      rewrite fmap_app. apply elem_of_app. left. apply elem_of_list_fmap. by exists (kw, d). }
    clear -H. rewrite put_docs_for. induction ls as [|l ls IH]; [done|].
    assert (H' : forall t' d, (kw, d) ∈ puts t' ls -> t' = t).
    { intros t' d Hin. apply (H t' d). change (l :: ls) with ([l] ++ ls). rewrite puts_app. apply elem_of_app. by right. }
    specialize (IH H'). destruct l as [job|t0|t0 kw0 doc|kw0 v|kw0 v|kw0 ord|k j]; try exact IH.
    unfold all_puts, puts, docs_for in *. csimpl. destruct (decide (kw0 = kw)) as [->|Hne].
    - assert (t0 = t) as ->.
      { apply (H t0 doc). csimpl. rewrite decide_True by done. left. }
      rewrite decide_True by done. csimpl. rewrite decide_True by done. by f_equal.
    - destruct (decide (t0 = t)); csimpl; rewrite ?decide_False by done; exact IH.
  Qed.
  Lemma one_job_done kw (ls : list lb) w : one_job kw (jobs ls) -> wrun (idle P) ls = Some w ->
    Forall (fun th => th_todo P th = []) (w_threads P w) -> put_docs kw ls = docs_for kw (mjoin (jobs ls)).
  Proof.
    intros H1 Hr Hth. destruct (tinv_run _ _ Hr) as [L1 L2 L3].
    destruct (decide (kw ∈ (mjoin (jobs ls)).*1)) as [Hk|Hk].
    - apply elem_of_list_fmap in Hk as ([k d] & -> & Hin). apply elem_of_list_join in Hin as (job & Hin & Hjob).
      apply elem_of_list_lookup in Hjob as [t Ht]. cbn [fst] in *.
      assert (Hk : k ∈ job.*1) by (apply elem_of_list_fmap; by exists (k, d)).
      rewrite (one_job_puts _ _ _ _ _ H1 Hr Ht Hk).
      assert (t < length (w_threads P w)) as Hlt by (rewrite L1; by eapply lookup_lt_Some).
      apply lookup_lt_is_Some in Hlt as [th Hlook]. pose proof (L2 _ _ Hlook) as E.
      rewrite Forall_lookup in Hth. rewrite (Hth _ _ Hlook), app_nil_r, Ht in E. injection E as <-.
      destruct (elem_of_list_split_length _ _ _ Ht) as (pre & post & E & Hlen).
      rewrite E, mjoin_app, docs_for_app. cbn [mjoin list_join]. rewrite docs_for_app.
      rewrite (docs_for_nil k (mjoin post)), (docs_for_nil k (mjoin pre)); [by rewrite app_nil_r|..];
        intros ([k' d'] & E' & Hin')%elem_of_list_fmap; simpl in E'; subst k';
        apply elem_of_list_join in Hin' as (job' & Hin' & Hjob'); apply elem_of_list_lookup in Hjob' as [t' Ht'].
      + assert (t' < length pre) by (by eapply lookup_lt_Some).
        assert (t' = t); [|lia]. eapply H1; [|exact Ht| |exact Hk].
        * rewrite E. by apply lookup_app_l_Some.
        * apply elem_of_list_fmap. by exists (k, d').
      + assert (length pre + S t' = t); [|lia]. eapply H1; [|exact Ht| |exact Hk].
        * rewrite E. rewrite lookup_app_r by lia. replace (length pre + S t' - length pre) with (S t') by lia. exact Ht'.
        * apply elem_of_list_fmap. by exists (k, d').
    - rewrite (docs_for_nil kw (mjoin (jobs ls))) by done.
      pose proof (puts_jobs kw ls w Hr) as H. rewrite (docs_for_nil kw (mjoin (jobs ls))) in H by done.
      by apply submseteq_nil_r in H.
  Qed.
End jobs.

Section search.
  Context {P : proto} (token : bytes -> nat -> bytes) (unmask : bytes -> nat -> p_val P -> p_doc P)
    (acc : bytes -> nat -> p_acc P) (ok : p_doc P -> Prop) (order : nat -> list nat).
  Hypothesis HP : proto_ok P token unmask acc ok order.
  Notation lb := (label P).

  Lemma jobs_hypotheses (ls : list lb) w js : wrun (idle P) ls = Some w -> jobs ls = js ->
    jobs_tokens_differ token js -> jobs_few js -> Forall (fun x => ok x.2) (mjoin js) ->
    tokens_differ token ls /\ few_puts ls /\ put_docs_ok ok ls.
  Proof.
    intros Hr <- Htd Hfew Hok.
    assert (Hsub : forall kw, put_docs kw ls ⊆+ docs_for kw (mjoin (jobs ls))) by (intros kw; by eapply puts_jobs).
    assert (Hlen : forall kw, length (put_docs kw ls) <= length (docs_for kw (mjoin (jobs ls)))).
    { intros kw. by apply submseteq_length. }
    split_and!.
    - intros kw i kw' i' Hi Hi'. apply Htd; [specialize (Hlen kw); lia|specialize (Hlen kw'); lia].
    - intros kw. specialize (Hfew kw). specialize (Hlen kw). lia.
    - intros kw. apply Forall_forall. intros d Hd. eapply elem_of_submseteq in Hd; [|apply Hsub].
      apply docs_for_elem in Hd. rewrite Forall_forall in Hok. by apply (Hok (kw, d)).
  Qed.

  Lemma done_generic js kw ord results : search_when_done js kw ord results ->
    one_job kw js -> jobs_tokens_differ token js -> jobs_few js -> Forall (fun x => ok x.2) (mjoin js) ->
    let docs := docs_for kw (mjoin js) in
    same_results ord results (omap (fun i => docs !! i) (order (length docs))).
  Proof.
    intros (ls1 & ls3 & w1 & w & q & Hr1 & Hj1 & Hlost & Hth & Hnet & Hr & Hj3 & Hq & Hp & <-) H1 Htd Hfew Hok docs.
    set (ls := ls1 ++ LSearch P kw ord :: ls3) in *.
    assert (Hj : jobs ls = js).
    { unfold ls. rewrite jobs_app, Hj1. change (js ++ jobs ls3 = js). by rewrite Hj3, app_nil_r. }
    destruct (jobs_hypotheses ls w js Hr Hj Htd Hfew Hok) as (Htok & Hf & Hd).
    assert (Hown : always (own_keyword kw) ls) by (apply one_job_own; by rewrite Hj).
    destruct (search_concurrent _ _ _ _ _ HP ls1 kw ord [] ls3 w q) as (see & Hs & Hsee); try done.
    { intros j Hj'. by apply elem_of_nil in Hj'. }
    assert (E : put_docs kw ls1 = docs).
    { unfold docs. rewrite <- Hj1. eapply one_job_done; [by rewrite Hj1|done|done]. }
    assert (Hall : forall i, i < length (put_docs kw ls1) -> see i = true).
    { intros i Hi. apply Hsee; [done|]. rewrite arrived_app.
      destruct (on_its_way _ _ _ _ _ HP kw ls1 w1) with (i := i) as [->|(m & Hm & _)]; try done.
      - by eapply always_app.
      - by eapply tokens_app.
      - by eapply few_app.
      - rewrite Hnet in Hm. by apply elem_of_nil in Hm. }
    rewrite seen_all in Hs; [by rewrite E in Hs|done|].
    apply Forall_forall. intros i Hi. rewrite (po_order _ _ _ _ _ _ HP) in Hi. apply elem_of_seq in Hi. lia.
  Qed.

  (** ** A keyword that several threads insert *)
  (** The values of the counter that the insertions of a keyword have used. *)
  Definition put_value (K : bytes) (w : world P) (l : lb) : list (p_doc P * nat) :=
    match l with
    | LPut _ t kw doc =>
        if decide (kw = K) then
          match w_threads P w !! t with
          | Some (Thread _ _ (Some v)) => [(doc, N.to_nat v)]
          | _ => []
          end
        else []
    | _ => []
    end.
  Fixpoint put_values (K : bytes) (w : world P) (ls : list lb) : list (p_doc P * nat) :=
    match ls with
    | [] => []
    | l :: ls' =>
        match wstep P w l with
        | Some w' => put_value K w l ++ put_values K w' ls'
        | None => []
        end
    end.
  Lemma put_values_app K ls1 : forall w w1 ls2, wrun w ls1 = Some w1 ->
    put_values K w (ls1 ++ ls2) = put_values K w ls1 ++ put_values K w1 ls2.
  Proof.
    induction ls1 as [|l ls1 IH]; intros w w1 ls2 E; [by injection E as <-|]. simpl in E |- *.
    destruct (wstep P w l) as [w'|]; [|done]. simpl in E. rewrite (IH _ _ _ E). by rewrite app_assoc.
  Qed.
  Lemma put_values_docs K ls : forall w w1, wrun w ls = Some w1 -> (put_values K w ls).*1 = put_docs K ls.
  Proof.
    induction ls as [|l ls IH]; intros w w1 E; [done|]. cbn [wrun] in E. cbn [put_values].
    destruct (wstep P w l) as [w'|] eqn:El; [|done]. cbn in E. rewrite fmap_app, (IH _ _ E).
    change (l :: ls) with ([l] ++ ls). rewrite put_docs_app. f_equal. unfold put_docs.
    destruct l; try done. csimpl. cbn [wstep] in El. case_decide; [|done].
    destruct (w_threads P w !! t) as [[[|[kw' doc'] todo] [v|]]|]; done.
  Qed.

  Record sinv (K : bytes) (ls : list lb) (w : world P) : Prop := {
    si_ctr : forall kw v, w_ctr P w !! kw = Some v -> exists n, v = N.of_nat n /\ n < length (put_docs kw ls);
    si_read : forall t kw doc todo v, w_threads P w !! t = Some (Thread P ((kw, doc) :: todo) (Some v)) ->
      exists n, v = N.of_nat n /\ n <= length (put_docs kw ls);
    si_net : forall m, m ∈ w_net P w -> exists i doc, m_ctr P m = N.of_nat i /\
      i < length (put_docs (m_kw P m) ls) /\ (m_token P m, m_val P m) = p_update P (m_kw P m) (N.of_nat i) doc /\
      (m_kw P m = K -> (doc, i) ∈ put_values K (idle P) ls);
    si_db : forall t v, w_db P w !! t = Some v -> exists kw i doc, i < length (put_docs kw ls) /\ t = token kw i /\
      v = (p_update P kw (N.of_nat i) doc).2 /\ (kw = K -> (doc, i) ∈ put_values K (idle P) ls) }.

  Lemma sinv_step K ls l w w' : wrun (idle P) ls = Some w -> sinv K ls w -> few_puts (ls ++ [l]) ->
    wstep P w l = Some w' -> sinv K (ls ++ [l]) w'.
  Proof.
    intros Hr [I1 I2 I3 I4] Hfew E.
    assert (Ev : put_values K (idle P) (ls ++ [l]) = put_values K (idle P) ls ++ put_value K w l).
    { rewrite (put_values_app K ls (idle P) w [l] Hr). f_equal. simpl. rewrite E. apply app_nil_r. }
    assert (Hmono : forall k, length (put_docs k ls) <= length (put_docs k (ls ++ [l]))).
    { intros k. rewrite put_docs_app, app_length. lia. }
    assert (Hpv : forall x, x ∈ put_values K (idle P) ls -> x ∈ put_values K (idle P) (ls ++ [l])).
    { intros x Hx. rewrite Ev. apply elem_of_app. by left. }
    assert (J1 : forall kw v, w_ctr P w !! kw = Some v -> exists n, v = N.of_nat n /\ n < length (put_docs kw (ls ++ [l]))).
    { intros kw v H. destruct (I1 _ _ H) as (n & -> & Hn). exists n. specialize (Hmono kw). split; [done|lia]. }
    assert (J2 : forall t kw doc todo v, w_threads P w !! t = Some (Thread P ((kw, doc) :: todo) (Some v)) ->
      exists n, v = N.of_nat n /\ n <= length (put_docs kw (ls ++ [l]))).
    { intros t kw doc todo v H. destruct (I2 _ _ _ _ _ H) as (n & -> & Hn). exists n. specialize (Hmono kw). split; [done|lia]. }
    assert (J3 : forall m, m ∈ w_net P w -> exists i doc, m_ctr P m = N.of_nat i /\
      i < length (put_docs (m_kw P m) (ls ++ [l])) /\ (m_token P m, m_val P m) = p_update P (m_kw P m) (N.of_nat i) doc /\
      (m_kw P m = K -> (doc, i) ∈ put_values K (idle P) (ls ++ [l]))).
    { intros m Hm. destruct (I3 m Hm) as (i & doc & H1 & H2 & H3 & H4). exists i, doc. specialize (Hmono (m_kw P m)).
      split; [done|]. split; [lia|]. split; [done|]. intros Hk. by apply Hpv, H4. }
    assert (J4 : forall t v, w_db P w !! t = Some v -> exists kw i doc, i < length (put_docs kw (ls ++ [l])) /\ t = token kw i /\
      v = (p_update P kw (N.of_nat i) doc).2 /\ (kw = K -> (doc, i) ∈ put_values K (idle P) (ls ++ [l]))).
    { intros t v H. destruct (I4 t v H) as (kw & i & doc & H1 & H2 & H3 & H4). exists kw, i, doc. specialize (Hmono kw).
      split; [lia|]. split; [done|]. split; [done|]. intros Hk. by apply Hpv, H4. }
    destruct l as [job|t|t kw doc|kw v|kw v|kw ord|k j]; cbn [wstep] in E.
    - injection E as <-. split; try done. cbn [w_threads]. intros t kw doc todo v.
      intros [H|[_ H]]%lookup_app_Some; [by eapply J2|]. apply list_lookup_singleton_Some in H as [_ H]. discriminate H.
    - destruct (w_threads P w !! t) as [[[|[kw doc] todo] [r|]]|] eqn:Et; try done. injection E as <-.
      split; try done. cbn [w_threads]. intros t' kw' doc' todo' v.
      intros [(<- & H & _)|[_ H]]%list_lookup_insert_Some; [|by eapply J2].
      injection H as -> <- <- <-. apply next_count_any; [apply Hfew|]. apply J1.
    - destruct (w_threads P w !! t) as [[[|[kw' doc'] todo] [v|]]|] eqn:Et; try done.
      case_decide as Hd; [|done]. destruct Hd as [-> ->]. injection E as <-.
      destruct (I2 _ _ _ _ _ Et) as (n & -> & Hn).
      assert (Hlen : n < length (put_docs kw (ls ++ [LPut P t kw doc]))).
      { rewrite put_docs_app, app_length. unfold put_docs at 2. csimpl. rewrite decide_True by done. simpl. lia. }
      split; cbn [w_ctr w_threads w_net w_db].
      + intros k v'. intros [[<- <-]|[Hne H]]%lookup_insert_Some; [by exists n|by apply J1].
      + intros t' k d todo' v'. intros [(<- & H & _)|[Hne H]]%list_lookup_insert_Some; [done|by eapply J2].
      + intros m [Hm|Hm]%elem_of_app; [by apply J3|]. apply elem_of_list_singleton in Hm as ->. cbn [m_ctr m_kw m_token m_val].
        exists n, doc. split; [done|]. split; [done|]. split; [by destruct (p_update P kw (N.of_nat n) doc)|].
        intros ->. rewrite Ev. apply elem_of_app. right. cbn [put_value]. rewrite decide_True, Et by done.
        rewrite Nat2N.id. left.
      + done.
    - destruct (take_message P kw v (w_net P w)) as [[m net]|] eqn:Em; [|done]. injection E as <-.
      apply take_message_spec in Em as (Hk & Hc & Hm & Hnet).
      split; try done; cbn [w_net w_db].
      + intros m' Hm'. apply J3, Hnet, Hm'.
      + intros t v'. intros [[<- <-]|[Hne H]]%lookup_insert_Some; [|by apply J4].
        destruct (J3 m Hm) as (i & doc & H1 & H2 & H3 & H4). exists (m_kw P m), i, doc.
        pose proof (f_equal fst H3) as Et. pose proof (f_equal snd H3) as Ev'. cbn [fst snd] in Et, Ev'.
        split; [done|]. split; [by rewrite Et, (po_token _ _ _ _ _ _ HP)|]. by split.
    - destruct (take_message P kw v (w_net P w)) as [[m net]|] eqn:Em; [|done]. injection E as <-.
      apply take_message_spec in Em as (_ & _ & _ & Hnet). split; try done. intros m' Hm'. apply J3, Hnet, Hm'.
    - injection E as <-. by split.
    - destruct (w_queries P w !! k) as [[kw ord pending results]|]; [|done].
      destruct (ord && negb (j =? 0)%nat); [done|]. destruct (pending !! j) as [a|]; [|done]. injection E as <-. by split.
  Qed.
  Lemma sinv_run K ls w : few_puts ls -> wrun (idle P) ls = Some w -> sinv K ls w.
  Proof.
    revert w. induction ls as [|l ls IH] using rev_ind; intros w Hfew E.
    - injection E as <-. split; try done. intros m Hm. by apply elem_of_nil in Hm.
    - apply wrun_snoc in E as (w1 & E1 & E2). eapply sinv_step; try done. apply IH; [by eapply few_app|done].
  Qed.

  (** What a search of [K] has found. *)
  Record squery (K : bytes) (ls : list lb) (q : query P) : Prop := {
    sq_state : exists (dn : list (nat * option (p_doc P))) (todo : list nat),
      q_pending P q = acc K <$> todo /\ NoDup (dn.*1 ++ todo) /\
      (forall i, i ∈ todo -> i < length (put_docs K ls)) /\
      q_results P q = omap snd dn /\
      (forall i d, (i, Some d) ∈ dn -> (d, i) ∈ put_values K (idle P) ls) }.

  Lemma squery_run K ord ls1 ls3 w : let ls := ls1 ++ LSearch P K ord :: ls3 in
    wrun (idle P) ls = Some w -> tokens_differ token ls -> few_puts ls -> put_docs_ok ok ls ->
    exists q, w_queries P w !! searches ls1 = Some q /\ squery K ls q.
  Proof.
    intros ls. unfold ls. clear ls. revert w. induction ls3 as [|l ls3 IH] using rev_ind; intros w Hr Htok Hfew Hok.
    - apply wrun_snoc in Hr as (w1 & E1 & E2). cbn [wstep] in E2. injection E2 as <-.
      pose proof (few_app _ _ Hfew) as Hfew1. pose proof (sinv_run K _ _ Hfew1 E1) as [I1 _ _ _].
      assert (Hlen : length (w_queries P w1) = searches ls1).
      { clear -E1. revert w1 E1. induction ls1 as [|l ls1 IH] using rev_ind; intros w1 E; [by injection E as <-|].
        apply wrun_snoc in E as (w0 & E0 & E). specialize (IH _ E0). rewrite searches_app.
        destruct l as [job|t|t kw doc|kw v|kw v|kw o|k j]; cbn [wstep] in E.
        - injection E as <-. unfold searches at 2. simpl. lia.
        - destruct (w_threads P w0 !! t) as [[[|[kw doc] todo] [r|]]|]; try done. injection E as <-. unfold searches at 2. simpl. lia.
        - destruct (w_threads P w0 !! t) as [[[|[kw' doc'] todo] [v|]]|]; try done. case_decide; [|done].
          injection E as <-. unfold searches at 2. simpl. lia.
        - destruct (take_message P kw v (w_net P w0)) as [[m net]|]; [|done]. injection E as <-. unfold searches at 2. simpl. lia.
        - destruct (take_message P kw v (w_net P w0)) as [[m net]|]; [|done]. injection E as <-. unfold searches at 2. simpl. lia.
        - injection E as <-. cbn [w_queries]. rewrite app_length. unfold searches at 2. simpl. lia.
        - destruct (w_queries P w0 !! k) as [[kw o pending results]|]; [|done].
          destruct (o && negb (j =? 0)%nat); [done|]. destruct (pending !! j) as [a|]; [|done]. injection E as <-.
          cbn [w_queries]. rewrite insert_length. unfold searches at 2. simpl. lia. }
      cbn [w_queries]. rewrite <- Hlen. eexists. split; [by apply list_lookup_middle|].
      split. cbn [q_pending q_results]. unfold ctr_get. destruct (w_ctr P w1 !! K) as [v|] eqn:Ev.
      + destruct (I1 _ _ Ev) as (n & -> & Hn). exists [], (order (S n)). split_and!.
        * apply (po_some _ _ _ _ _ _ HP). specialize (Hfew1 K). lia.
        * simpl. rewrite (po_order _ _ _ _ _ _ HP). apply NoDup_seq.
        * intros i Hi. rewrite (po_order _ _ _ _ _ _ HP) in Hi. apply elem_of_seq in Hi.
          rewrite put_docs_app, app_length. lia.
        * done.
        * intros i d Hi. by apply elem_of_nil in Hi.
      + exists [], []. split_and!; try done.
        * apply (po_none _ _ _ _ _ _ HP).
        * simpl. constructor.
        * intros i Hi. by apply elem_of_nil in Hi.
        * intros i d Hi. by apply elem_of_nil in Hi.
    - change (ls1 ++ LSearch P K ord :: ls3 ++ [l]) with (ls1 ++ (LSearch P K ord :: ls3) ++ [l]) in *.
      rewrite app_assoc in *. set (ls := ls1 ++ LSearch P K ord :: ls3) in *.
      apply wrun_snoc in Hr as (w1 & E1 & E2).
      destruct (IH w1 E1) as (q & Hq & [(dn & todo & H1 & H2 & H3 & H4 & H5)]);
        [by eapply tokens_app|by eapply few_app|by eapply docs_app|]. clear IH.
      assert (Hpv : forall x, x ∈ put_values K (idle P) ls -> x ∈ put_values K (idle P) (ls ++ [l])).
      { intros x Hx. rewrite (put_values_app K ls _ _ _ E1). apply elem_of_app. by left. }
      assert (Hmono : length (put_docs K ls) <= length (put_docs K (ls ++ [l]))).
      { rewrite put_docs_app, app_length. lia. }
      destruct (wstep_query _ _ _ _ _ E2 Hq) as [[Hq2 _]|(j & a & -> & Hj & Ha & Edb & Hq2)].
      + exists q. split; [done|]. split. exists dn, todo. split_and!; try done.
        * intros i Hi. specialize (H3 i Hi). lia.
        * intros i d Hi. by apply Hpv, H5.
      + eexists. split; [exact Hq2|]. split. cbn [q_pending q_results].
        rewrite H1, list_lookup_fmap in Ha. destruct (todo !! j) as [i|] eqn:Ei; [|done]. injection Ha as <-.
        assert (Hin : i ∈ todo) by (by eapply elem_of_list_lookup_2).
        exists (dn ++ [(i, head (p_access P (w_db P w1) (acc K i)))]), (delete j todo).
        assert (Hperm : dn.*1 ++ todo ≡ₚ (dn ++ [(i, head (p_access P (w_db P w1) (acc K i)))]).*1 ++ delete j todo).
        { rewrite fmap_app, <- app_assoc. f_equiv. simpl. by apply delete_Permutation. }
        split_and!.
        * rewrite H1. by rewrite list_fmap_delete.
        * by rewrite <- Hperm.
        * intros i' Hi'. assert (i' ∈ todo) as Hi''; [|specialize (H3 i' Hi''); lia].
          rewrite (delete_Permutation _ _ _ Ei). by right.
        * rewrite H4, omap_app. f_equal. rewrite (po_access _ _ _ _ _ _ HP). by destruct (w_db P w1 !! token K i).
        * intros i' d [Hi'|Hi']%elem_of_app; [by apply Hpv, H5|]. apply elem_of_list_singleton in Hi'.
          injection Hi' as -> Ed. apply Hpv. rewrite (po_access _ _ _ _ _ _ HP) in Ed.
          destruct (w_db P w1 !! token K i) as [v|] eqn:Ev; [|done]. injection Ed as ->.
          pose proof (sinv_run K _ _ (few_app _ _ Hfew) E1) as [_ _ _ I4].
          destruct (I4 _ _ Ev) as (kw & i' & doc & Hi' & Et & -> & Hpv').
          assert (K = kw /\ i = i') as [<- <-].
          { apply (Htok K i kw i'); [|rewrite put_docs_app, app_length; lia|done]. specialize (H3 i Hin). lia. }
          specialize (Hpv' eq_refl). rewrite (po_unmask _ _ _ _ _ _ HP); [done|].
          specialize (Hok K). rewrite put_docs_app, Forall_app in Hok. destruct Hok as [Hok _].
          rewrite Forall_forall in Hok. apply Hok. rewrite <- (put_values_docs K ls _ _ E1).
          apply elem_of_list_fmap. by exists (doc, i).
  Qed.

  Lemma any_time_generic js kw ord results : search_any_time js kw ord results ->
    jobs_tokens_differ token js -> jobs_few js -> Forall (fun x => ok x.2) (mjoin js) ->
    results ⊆+ docs_for kw (mjoin js).
  Proof.
    intros (ls1 & ls3 & w & q & Hr & Hj & Hq & Hp & <-) Htd Hfew Hok.
    destruct (jobs_hypotheses _ w js Hr Hj Htd Hfew Hok) as (Htok & Hf & Hd).
    destruct (squery_run kw ord ls1 ls3 w Hr Htok Hf Hd) as (q' & Hq' & [(dn & todo & H1 & H2 & H3 & H4 & H5)]).
    rewrite Hq in Hq'. injection Hq' as <-. rewrite H4.
    etransitivity; [|rewrite <- Hj; by eapply puts_jobs]. erewrite <- put_values_docs by exact Hr.
    set (found := omap (fun x : nat * option (p_doc P) => match x.2 with Some d => Some (d, x.1) | None => None end) dn).
    assert (E : omap snd dn = found.*1).
    { unfold found. clear. induction dn as [|[i [d|]] dn IH]; csimpl; [done|by rewrite IH|done]. }
    rewrite E. apply fmap_submseteq, NoDup_submseteq.
    - apply NoDup_app in H2 as (H2 & _ & _). apply (NoDup_fmap_1 snd).
      unfold found. clear -H2. induction dn as [|[i [d|]] dn IH]; csimpl in *; [constructor| |];
        apply NoDup_cons in H2 as [Hi H2]; [|by apply IH].
      constructor; [|by apply IH]. intros Hin. apply Hi. clear -Hin.
      induction dn as [|[i' [d'|]] dn IH]; csimpl in *; [done| |right; by apply IH].
      apply elem_of_cons in Hin as [->|Hin]; [left|right; by apply IH].
    - intros [d i] Hx. unfold found in Hx. apply elem_of_list_omap in Hx as ([i' [d'|]] & Hx & E'); [|done].
      simpl in E'. injection E' as -> ->. by apply H5.
  Qed.
End search.
