(** Proofs about power failures. *)
From stdpp Require Import prelude gmap.
From Coq Require Import NArith Lia.
From Verif Require Import Base EncModel KvModel UtilsModel SophosModel DianaModel ConcModel ConcSpec ConcProofs PowerModel PowerSpec.
Local Arguments N.modulo : simpl never.
Local Arguments N.pow : simpl never.
Local Arguments N.of_nat : simpl never.

Lemma number_app kw l l' : number kw (l ++ l') = number kw l + number kw l'.
Proof. unfold number. by rewrite filter_app, app_length. Qed.
Lemma number_one kw k : number kw [k] = if decide (k = kw) then 1 else 0.
Proof. unfold number. destruct (decide (k = kw)); [rewrite filter_cons_True by done|rewrite filter_cons_False by done]; done. Qed.
Lemma number_take kw n l : number kw (take n l) <= number kw l.
Proof. rewrite <- (take_drop n l) at 2. rewrite number_app. lia. Qed.
Lemma last_written_app {A} kw i (l l' : list (bytes * nat * A)) :
  last_written kw i (l ++ l') = match last_written kw i l' with Some d => Some d | None => last_written kw i l end.
Proof.
  unfold last_written. rewrite omap_app, last_app. done.
Qed.
Lemma last_written_one {A} kw i k j (d : A) : last_written kw i [(k, j, d)] = if decide ((k, j) = (kw, i)) then Some d else None.
Proof. unfold last_written. csimpl. by destruct (decide ((k, j) = (kw, i))). Qed.

(** The counters after some insertions; what is written. *)
Definition ctr_step (m : gmap bytes N) (k : bytes) : gmap bytes N := <[k := next_value (m !! k)]> m.
Definition ctr_of (l : list bytes) : gmap bytes N := foldl ctr_step ∅ l.
Fixpoint ctr_writes (m : gmap bytes N) (l : list bytes) : list (bytes * N) :=
  match l with
  | [] => []
  | k :: l' => (k, next_value (m !! k)) :: ctr_writes (ctr_step m k) l'
  end.
Lemma ctr_writes_foldl l : forall m, foldl (fun m x => <[x.1 := x.2]> m) m (ctr_writes m l) = foldl ctr_step m l.
Proof. induction l as [|k l IH]; intros m; [done|]. simpl. apply IH. Qed.
Lemma ctr_writes_app l l' : forall m, ctr_writes m (l ++ l') = ctr_writes m l ++ ctr_writes (foldl ctr_step m l) l'.
Proof. induction l as [|k l IH]; intros m; [done|]. simpl. by rewrite IH. Qed.
Lemma ctr_writes_take n l : forall m, take n (ctr_writes m l) = ctr_writes m (take n l).
Proof. revert n. induction l as [|k l IH]; intros [|n] m; simpl; try done. by rewrite IH. Qed.
Lemma ctr_of_app l l' : ctr_of (l ++ l') = foldl ctr_step (ctr_of l) l'.
Proof. apply foldl_app. Qed.
Definition ctr_value (n : nat) : option N := match n with O => None | S n' => Some (N.of_nat n') end.
Lemma ctr_of_lookup kw l : (N.of_nat (number kw l) < 2 ^ 32)%N -> ctr_of l !! kw = ctr_value (number kw l).
Proof.
  induction l as [|k l IH] using rev_ind; [done|]. rewrite number_app, number_one, ctr_of_app. simpl. unfold ctr_step at 1.
  destruct (decide (k = kw)) as [->|Hne].
  - intros H. rewrite lookup_insert. rewrite IH by lia. rewrite Nat.add_1_r in *. destruct (number kw l) as [|n]; [done|].
    simpl. unfold incr32. rewrite N.mod_small by lia. f_equal. lia.
  - intros H. rewrite lookup_insert_ne by done. rewrite Nat.add_0_r in *. by apply IH.
Qed.
Lemma ctr_value_next n : (N.of_nat n < 2 ^ 32)%N -> next_value (ctr_value n) = N.of_nat n.
Proof. destruct n as [|n]; [done|]. intros H. simpl. unfold incr32. rewrite N.mod_small by lia. lia. Qed.

Section proofs.
  Context {P : proto} (token : bytes -> nat -> bytes) (unmask : bytes -> nat -> p_val P -> p_doc P)
    (acc : bytes -> nat -> p_acc P) (ok : p_doc P -> Prop) (order : nat -> list nat).
  Context (HP : proto_ok P token unmask acc ok order).
  Notation op := (pop P).

  (** The database after some deliveries. *)
  Definition enc (x : bytes * nat * p_doc P) : bytes * p_val P := p_update P x.1.1 (N.of_nat x.1.2) x.2.
  Definition db_of (l : list (bytes * nat * p_doc P)) : gmap bytes (p_val P) :=
    foldl (fun m x => <[x.1 := x.2]> m) ∅ (enc <$> l).
  Lemma db_of_app l l' : db_of (l ++ l') = foldl (fun m x => <[x.1 := x.2]> m) (db_of l) (enc <$> l').
  Proof. unfold db_of. by rewrite fmap_app, foldl_app. Qed.
  Lemma db_of_lookup (used : bytes -> nat -> Prop) l kw i :
    (forall k j k' j', used k j -> used k' j' -> token k j = token k' j' -> k = k' /\ j = j') ->
    used kw i -> Forall (fun x => used x.1.1 x.1.2 /\ ok x.2) l ->
    match db_of l !! token kw i with Some v => [unmask kw i v] | None => [] end =
    match last_written kw i l with Some d => [d] | None => [] end.
  Proof.
    intros Hinj Hu. induction l as [|[[k j] d] l IH] using rev_ind; intros Hl; [done|].
    apply Forall_app in Hl as [Hl Hx]. apply Forall_singleton in Hx as [Hx Hok]. cbn [fst snd] in Hx, Hok.
    rewrite db_of_app, last_written_app, last_written_one. cbn [fmap list_fmap foldl]. unfold enc at 1. cbn [fst snd].
    rewrite (po_token _ _ _ _ _ _ HP). destruct (decide ((k, j) = (kw, i))) as [E|E].
    - injection E as -> ->. rewrite lookup_insert. unfold enc. cbn [fst snd].
      by rewrite (po_unmask _ _ _ _ _ _ HP).
    - rewrite lookup_insert_ne; [by apply IH|]. intros E'. apply E. apply Hinj in E' as [-> ->]; done.
  Qed.

  (** The invariant. *)
  Record pinv (ops : list op) (s : psys P) (m : pspec (P := P)) : Prop := {
    pi_cdisk : wl_disk (ps_ctr P s) = ctr_of (mem_safe m.1);
    pi_ccache : wl_cache (ps_ctr P s) = ctr_writes (ctr_of (mem_safe m.1)) (mem_recent m.1);
    pi_sdisk : wl_disk (ps_db P s) = db_of (mem_safe m.2);
    pi_scache : wl_cache (ps_db P s) = enc <$> mem_recent m.2;
    pi_number : forall kw, number kw (mem_all m.1) <= length (p_inserted kw ops);
    pi_slots : Forall (fun x => x.1.2 < length (p_inserted x.1.1 ops) /\ x.2 ∈ p_inserted x.1.1 ops) (mem_all m.2) }.
  Lemma pinv_ctr ops s m : pinv ops s m -> wl_now (ps_ctr P s) = ctr_of (mem_all m.1).
  Proof.
    intros H. unfold wl_now. rewrite (pi_cdisk _ _ _ H), (pi_ccache _ _ _ H), ctr_writes_foldl. unfold mem_all. by rewrite ctr_of_app.
  Qed.
  Lemma pinv_db ops s m : pinv ops s m -> wl_now (ps_db P s) = db_of (mem_all m.2).
  Proof. intros H. unfold wl_now. rewrite (pi_sdisk _ _ _ H), (pi_scache _ _ _ H). unfold mem_all. by rewrite db_of_app. Qed.

  Lemma p_inserted_app kw (l l' : list op) : p_inserted kw (l ++ l') = p_inserted kw l ++ p_inserted kw l'.
  Proof. apply omap_app. Qed.
  Lemma p_inserted_mono kw (ops : list op) o : length (p_inserted kw ops) <= length (p_inserted kw (ops ++ [o])).
  Proof. rewrite p_inserted_app, app_length. lia. Qed.
  Lemma slots_mono (ops : list op) o l :
    Forall (fun x : bytes * nat * p_doc P => x.1.2 < length (p_inserted x.1.1 ops) /\ x.2 ∈ p_inserted x.1.1 ops) l ->
    Forall (fun x : bytes * nat * p_doc P => x.1.2 < length (p_inserted x.1.1 (ops ++ [o])) /\ x.2 ∈ p_inserted x.1.1 (ops ++ [o])) l.
  Proof.
    intros H. eapply Forall_impl; [exact H|]. intros [[k j] d] [H1 H2]. cbn [fst snd] in *. pose proof (p_inserted_mono k ops o). split; [lia|].
    rewrite p_inserted_app. apply elem_of_app. by left.
  Qed.
  Lemma p_few_app (ops ops' : list op) : p_few (ops ++ ops') -> p_few ops.
  Proof. intros H kw. specialize (H kw). rewrite p_inserted_app, app_length in H. lia. Qed.

  Lemma pinv_step ops s m o : pinv ops s m -> p_few (ops ++ [o]) ->
    pinv (ops ++ [o]) (pstep P s o).1 (spec_step m o).
  Proof.
    intros H Hf. pose proof (pinv_ctr _ _ _ H) as Hc. pose proof (pinv_db _ _ _ H) as Hdb. destruct H as [H1 H2 H3 H4 H5 H6].
    destruct m as [[cs cr] [ss sr]]. cbn [fst snd mem_safe mem_recent] in *. destruct o as [kw doc dl|kw| |kept|kept]; cbn [pstep spec_step fst snd].
    - assert (Hv : next_value (ctr_get (wl_now (ps_ctr P s)) kw) = N.of_nat (number kw (cs ++ cr))).
      { rewrite Hc. unfold ctr_get, mem_all. cbn [mem_safe mem_recent]. specialize (Hf kw). rewrite p_inserted_app, app_length in Hf.
        specialize (H5 kw). unfold mem_all in H5. cbn [mem_safe mem_recent] in H5.
        rewrite ctr_of_lookup by lia. apply ctr_value_next. lia. }
      split; cbn [ps_ctr ps_db wl_put wl_disk wl_cache mem_add mem_safe mem_recent fst snd].
      + done.
      + rewrite H2, ctr_writes_app. f_equal. cbn [ctr_writes]. f_equal. f_equal.
        rewrite Hc. unfold ctr_get, mem_all. cbn [mem_safe mem_recent]. by rewrite ctr_of_app.
      + by destruct dl.
      + destruct dl; [|done]. cbn [wl_put wl_cache mem_add mem_recent]. rewrite H4, fmap_app. f_equal. cbn. f_equal.
        unfold enc. cbn [fst snd]. unfold mem_all. cbn [mem_safe mem_recent]. rewrite Hv. by destruct (p_update P kw _ doc).
      + intros k. specialize (H5 k). unfold mem_all in *. cbn [fst mem_add mem_safe mem_recent] in *.
        rewrite app_assoc, number_app, number_one, p_inserted_app, app_length. cbn. destruct (decide (kw = k)); simpl; lia.
      + destruct dl; [|by apply slots_mono]. unfold mem_all. cbn [mem_add mem_safe mem_recent]. rewrite app_assoc. apply Forall_app.
        split; [by apply slots_mono|]. apply Forall_singleton. cbn [fst snd]. specialize (H5 kw). unfold mem_all in *. cbn [mem_safe mem_recent] in *.
        rewrite p_inserted_app, app_length. cbn. rewrite decide_True by done. simpl. split; [lia|]. apply elem_of_app. right. by left.
    - split; try done; [|by apply slots_mono]. intros k. specialize (H5 k). pose proof (p_inserted_mono k ops (PFind P kw)). cbn [fst] in *. lia.
    - split; cbn [ps_ctr ps_db wl_flush wl_disk wl_cache mem_save mem_safe mem_recent fst snd]; try done.
      + intros k. specialize (H5 k). pose proof (p_inserted_mono k ops (PFlush P)). lia.
      + unfold mem_all in *. cbn [snd mem_save mem_safe mem_recent] in *. rewrite app_nil_r. by apply slots_mono.
    - split; cbn [ps_ctr ps_db wl_power wl_disk wl_cache mem_lose mem_safe mem_recent fst snd]; try done.
      + unfold wl_now. cbn [wl_disk wl_cache]. rewrite H1, H2, ctr_writes_take, ctr_writes_foldl. by rewrite ctr_of_app.
      + intros k. specialize (H5 k). pose proof (p_inserted_mono k ops (PClientOff P kept)).
        unfold mem_all in *. cbn [fst mem_lose mem_safe mem_recent] in *. rewrite app_nil_r. rewrite number_app in *. pose proof (number_take k kept cr). lia.
      + by apply slots_mono.
    - split; cbn [ps_ctr ps_db wl_power wl_disk wl_cache mem_lose mem_safe mem_recent fst snd]; try done.
      + unfold wl_now. cbn [wl_disk wl_cache]. rewrite H3, H4, <- fmap_take. by rewrite db_of_app.
      + intros k. specialize (H5 k). pose proof (p_inserted_mono k ops (PServerOff P kept)). lia.
      + unfold mem_all in *. cbn [snd mem_lose mem_safe mem_recent] in *. rewrite app_nil_r. apply slots_mono.
        apply Forall_app in H6 as [H6 H6']. apply Forall_app. split; [done|]. by apply Forall_take.
  Qed.

  Lemma prun_app (ops ops' : list op) : forall s,
    prun P s (ops ++ ops') = ((prun P (prun P s ops).1 ops').1, (prun P s ops).2 ++ (prun P (prun P s ops).1 ops').2).
  Proof. induction ops as [|o ops IH]; intros s; simpl; [by destruct (prun P s ops')|]. by rewrite IH. Qed.
  Lemma prun_snoc (ops : list op) o : prun P (pinit P) (ops ++ [o]) =
    ((pstep P (prun P (pinit P) ops).1 o).1, (prun P (pinit P) ops).2 ++ [(pstep P (prun P (pinit P) ops).1 o).2]).
  Proof. by rewrite prun_app. Qed.
  Lemma spec_run_snoc (ops : list op) o : spec_run (ops ++ [o]) = spec_step (spec_run ops) o.
  Proof. unfold spec_run. by rewrite foldl_app. Qed.
  Lemma pinv_run ops : p_few ops -> pinv ops (prun P (pinit P) ops).1 (spec_run ops).
  Proof.
    induction ops as [|o ops IH] using rev_ind; intros Hf.
    - split; try done. constructor.
    - rewrite prun_snoc, spec_run_snoc. cbn [fst]. apply pinv_step; [|done]. by eapply IH, p_few_app.
  Qed.

  (** A search. *)
  Lemma find_generic ops kw : p_no_collision token ops -> p_few ops -> p_docs_ok ok ops ->
    answers ops kw (spec_find order (spec_run ops) kw).
  Proof.
    intros Hnc Hf Hok. pose proof (pinv_run ops Hf) as H. unfold answers. rewrite prun_snoc. cbn [snd pstep].
    eexists. f_equal. f_equal. f_equal. rewrite (pinv_ctr _ _ _ H), (pinv_db _ _ _ H). unfold ctr_get, spec_find.
    pose proof (pi_number _ _ _ H kw) as Hn. pose proof (Hf kw) as Hfk. rewrite ctr_of_lookup by lia.
    pose proof (pi_slots _ _ _ H) as Hsl. set (n := number kw (mem_all (spec_run ops).1)) in *.
    assert (Eacc : p_accesses P (p_request P kw (ctr_value n)) = acc kw <$> order n).
    { destruct n as [|n'] eqn:En; cbn [ctr_value]; [|apply (po_some _ _ _ _ _ _ HP); lia].
      rewrite (po_none _ _ _ _ _ _ HP). pose proof (po_order _ _ _ _ _ _ HP 0) as E. simpl in E.
      apply Permutation_nil_r in E. by rewrite E. }
    rewrite Eacc. clear Eacc.
    assert (Hlt : Forall (fun i => i < n) (order n)).
    { apply Forall_forall. intros i Hi. rewrite (po_order _ _ _ _ _ _ HP n) in Hi. apply elem_of_seq in Hi. lia. }
    induction Hlt as [|i l Hi _ IH]; [done|]. rewrite fmap_cons, bind_cons, IH. csimpl. rewrite (po_access _ _ _ _ _ _ HP).
    rewrite (db_of_lookup (fun k j => j < length (p_inserted k ops))).
    - by destruct (last_written kw i (mem_all (spec_run ops).2)).
    - intros k j k' j' Hj Hj'. by apply Hnc.
    - cbn beta. lia.
    - eapply Forall_impl; [exact Hsl|]. intros [[k j] d] [H1 H2]. cbn [fst snd] in *. split; [done|].
      specialize (Hok k). rewrite Forall_forall in Hok. by apply Hok.
  Qed.
  (** An insertion. *)
  Lemma send_generic ops kw doc dl : p_few (ops ++ [PIns P kw doc dl]) ->
    let i := number kw (mem_all (spec_run ops).1) in
    sends (ops ++ [PIns P kw doc dl]) (token kw i) (p_update P kw (N.of_nat i) doc).2.
  Proof.
    intros Hf i. pose proof (pinv_run ops (p_few_app _ _ Hf)) as H. unfold sends. rewrite prun_snoc. cbn [snd pstep].
    eexists. f_equal. f_equal. rewrite (pinv_ctr _ _ _ H). unfold ctr_get.
    assert (Hn : (N.of_nat (number kw (mem_all (spec_run ops).1)) < 2 ^ 32)%N).
    { pose proof (pi_number _ _ _ H kw). specialize (Hf kw). rewrite p_inserted_app, app_length in Hf. lia. }
    rewrite ctr_of_lookup, ctr_value_next by done. by rewrite (po_token _ _ _ _ _ _ HP).
  Qed.
End proofs.

(** ** The client keeps its counters *)
Section spec_proofs.
  Context {P : proto}.
  Notation op := (pop P).
  Notation ent := (bytes * nat * p_doc P)%type.

  (** The numbers and documents of a keyword. *)
  Definition proj (kw : bytes) (l : list ent) : list (nat * p_doc P) :=
    omap (fun x : ent => if decide (x.1.1 = kw) then Some (x.1.2, x.2) else None) l.
  Lemma proj_app kw l l' : proj kw (l ++ l') = proj kw l ++ proj kw l'.
  Proof. apply omap_app. Qed.
  Lemma proj_take kw n l : exists k, proj kw (take n l) = take k (proj kw l).
  Proof.
    exists (length (proj kw (take n l))). rewrite <- (take_drop n l) at 3. rewrite proj_app. by rewrite take_app.
  Qed.
  Definition safe_docs (kw : bytes) (ops : list op) : list (p_doc P) := (proj kw (mem_safe (spec_run ops).2)).*2.
  Definition content (kw : bytes) (ops : list op) : list (p_doc P) := (proj kw (mem_all (spec_run ops).2)).*2.
  Lemma content_eq kw ops : content kw ops = safe_docs kw ops ++ (proj kw (mem_recent (spec_run ops).2)).*2.
  Proof. unfold content, safe_docs, mem_all. by rewrite proj_app, fmap_app. Qed.
  Lemma p_delivered_app kw (l l' : list op) : p_delivered kw (l ++ l') = p_delivered kw l ++ p_delivered kw l'.
  Proof. apply omap_app. Qed.
  Lemma spec_run_step (ops : list op) o : spec_run (ops ++ [o]) = spec_step (spec_run ops) o.
  Proof. unfold spec_run. by rewrite foldl_app. Qed.

  (** One step on the side of the server. *)
  Lemma server_step kw (ops : list op) o :
    (proj kw (mem_safe (spec_run (ops ++ [o])).2), proj kw (mem_recent (spec_run (ops ++ [o])).2)) =
    match o with
    | PIns _ k doc true =>
        (proj kw (mem_safe (spec_run ops).2), proj kw (mem_recent (spec_run ops).2) ++
           (if decide (k = kw) then [(number kw (mem_all (spec_run ops).1), doc)] else []))
    | PFlush _ => (proj kw (mem_all (spec_run ops).2), [])
    | PServerOff _ kept => (proj kw (mem_safe (spec_run ops).2 ++ take kept (mem_recent (spec_run ops).2)), [])
    | _ => (proj kw (mem_safe (spec_run ops).2), proj kw (mem_recent (spec_run ops).2))
    end.
  Proof.
    rewrite spec_run_step. destruct (spec_run ops) as [c [ss sr]]. destruct o as [k doc [|]| | | |]; try done.
    cbn [spec_step fst snd mem_add mem_safe mem_recent]. f_equal. rewrite proj_app. f_equal. unfold proj. csimpl.
    destruct (decide (k = kw)) as [->|]; done.
  Qed.
  Lemma server_step_safe kw (ops : list op) o : safe_docs kw (ops ++ [o]) =
    match o with
    | PFlush _ => content kw ops
    | PServerOff _ kept => safe_docs kw ops ++ (proj kw (take kept (mem_recent (spec_run ops).2))).*2
    | _ => safe_docs kw ops
    end.
  Proof.
    unfold safe_docs. pose proof (f_equal fst (server_step kw ops o)) as E. cbn [fst] in E. rewrite E.
    destruct o as [k doc [|]| | | |]; try done. cbn [fst]. by rewrite proj_app, fmap_app.
  Qed.
  Lemma server_step_recent kw (ops : list op) o : (proj kw (mem_recent (spec_run (ops ++ [o])).2)).*2 =
    match o with
    | PFlush _ | PServerOff _ _ => []
    | _ => (proj kw (mem_recent (spec_run ops).2)).*2 ++ p_delivered kw [o]
    end.
  Proof.
    pose proof (f_equal snd (server_step kw ops o)) as E. cbn [snd] in E. rewrite E.
    destruct o as [k doc [|]| | | |]; cbn [snd p_delivered omap list_omap]; try (by rewrite app_nil_r); try done.
    rewrite fmap_app. f_equal. csimpl. by destruct (decide (k = kw)).
  Qed.

  Lemma content_on kw (ops ops' : list op) : server_on ops' -> content kw (ops ++ ops') = content kw ops ++ p_delivered kw ops'.
  Proof.
    induction ops' as [|o ops' IH] using rev_ind; intros Hon; [by rewrite !app_nil_r|].
    assert (Hon' : server_on ops') by (intros k Hk; apply (Hon k), elem_of_app; by left).
    rewrite app_assoc, content_eq, server_step_safe, server_step_recent, p_delivered_app, app_assoc, <- IH by done.
    destruct o as [k doc dl|k| |kept|kept].
    - by rewrite content_eq, !app_assoc.
    - by rewrite content_eq, !app_assoc.
    - change (p_delivered kw [PFlush P]) with (@nil (p_doc P)). by rewrite !app_nil_r.
    - by rewrite content_eq, !app_assoc.
    - exfalso. apply (Hon kept), elem_of_app. right. by left.
  Qed.
  Lemma content_flush kw (ops : list op) : content kw (ops ++ [PFlush P]) = content kw ops /\
    safe_docs kw (ops ++ [PFlush P]) = content kw ops /\ mem_recent (spec_run (ops ++ [PFlush P])).2 = [].
  Proof.
    split; [|split].
    - rewrite content_on; [by rewrite app_nil_r|]. intros k Hk%elem_of_list_singleton. done.
    - by rewrite server_step_safe.
    - by rewrite spec_run_step.
  Qed.
  Lemma content_after kw (ops ops' : list op) : mem_recent (spec_run ops).2 = [] ->
    exists r1, safe_docs kw (ops ++ ops') = safe_docs kw ops ++ r1 /\
      exists r, content kw (ops ++ ops') = safe_docs kw ops ++ r1 ++ r /\ sublist (r1 ++ r) (p_delivered kw ops').
  Proof.
    intros Hnil. induction ops' as [|o ops' (r1 & E1 & r & E2 & Hs)] using rev_ind.
    { exists []. rewrite !app_nil_r. split; [done|]. exists []. rewrite content_eq, Hnil, !app_nil_r. by split. }
    rewrite !app_assoc in *. rewrite content_eq in *. rewrite server_step_safe, server_step_recent, p_delivered_app.
    rewrite E1, <- !app_assoc in E2. apply app_inv_head, app_inv_head in E2.
    destruct o as [k doc dl| | | |kept].
    - exists r1. split; [done|]. eexists. rewrite E1, E2, <- !app_assoc. split; [done|]. rewrite app_assoc. by apply sublist_app.
    - exists r1. split; [done|]. eexists. rewrite E1, E2, <- !app_assoc. split; [done|]. rewrite app_assoc. by apply sublist_app.
    - exists (r1 ++ r). rewrite content_eq, E1, E2, app_assoc. split; [done|]. exists []. rewrite !app_nil_r, <- app_assoc. by split.
    - exists r1. split; [done|]. eexists. rewrite E1, E2, <- !app_assoc. split; [done|]. rewrite app_assoc. by apply sublist_app.
    - destruct (proj_take kw kept (mem_recent (spec_run (ops ++ ops')).2)) as [n ->].
      exists (r1 ++ take n r). rewrite E1, <- E2, fmap_take, <- app_assoc. split; [done|]. exists []. rewrite !app_nil_r. split; [done|].
      etransitivity; [|rewrite <- E2 in Hs; exact Hs]. apply sublist_app; [done|]. apply sublist_take.
  Qed.
  Lemma content_sub kw (ops : list op) : sublist (content kw ops) (p_delivered kw ops).
  Proof. destruct (content_after kw [] ops eq_refl) as (r1 & _ & r & E & Hs). cbn [app] in E. rewrite E. exact Hs. Qed.

  (** The numbers, when the client keeps its counters. *)
  Lemma client_number kw (ops ops' : list op) : client_on ops' ->
    number kw (mem_all (spec_run (ops ++ ops')).1) = number kw (mem_all (spec_run ops).1) + length (p_inserted kw ops').
  Proof.
    induction ops' as [|o ops' IH] using rev_ind; intros Hon; [rewrite app_nil_r; simpl; lia|].
    assert (Hon' : client_on ops') by (intros k Hk; apply (Hon k), elem_of_app; by left).
    specialize (IH Hon'). rewrite app_assoc, spec_run_step. unfold p_inserted in *. rewrite omap_app, app_length.
    destruct o as [k doc dl| | |kept|]; cbn [spec_step fst]; try (csimpl; lia).
    - unfold mem_all in *. cbn [mem_add mem_safe mem_recent]. rewrite app_assoc, number_app, IH, number_one. csimpl.
      destruct (decide (k = kw)); simpl; lia.
    - exfalso. apply (Hon kept), elem_of_app. right. by left.
  Qed.
  (** Strictly increasing numbers below [n]. *)
  Fixpoint rising (lo n : nat) (l : list (nat * p_doc P)) : Prop :=
    match l with
    | [] => True
    | x :: l' => lo <= x.1 /\ x.1 < n /\ rising (S x.1) n l'
    end.
  Lemma rising_mono lo n n' l : n <= n' -> rising lo n l -> rising lo n' l.
  Proof. revert lo. induction l as [|x l IH]; intros lo Hn; [done|]. intros (H1 & H2 & H3). split_and!; [done|lia|by apply IH]. Qed.
  Lemma rising_snoc lo n l x : rising lo n l -> lo <= n -> x.1 = n -> rising lo (S n) (l ++ [x]).
  Proof.
    revert lo. induction l as [|y l IH]; intros lo H Hlo Hx.
    - simpl. lia.
    - destruct H as (H1 & H2 & H3). simpl. split_and!; [done|lia|]. apply IH; [done|lia|done].
  Qed.
  Lemma rising_sub lo n l l' : sublist l l' -> rising lo n l' -> rising lo n l.
  Proof.
    intros H. revert lo. induction H as [|x l l' H IH|x l l' H IH]; intros lo Hr; [done| |].
    - destruct Hr as (H1 & H2 & H3). split_and!; [done|done|by apply IH].
    - destruct Hr as (H1 & H2 & H3). apply IH. clear -H1 H3. destruct l' as [|y l']; [done|].
      destruct H3 as (H4 & H5 & H6). split_and!; [lia|done|done].
  Qed.
  Lemma sublist_omap {A B} (f : A -> option B) l l' : sublist l l' -> sublist (omap f l) (omap f l').
  Proof. induction 1 as [|x l l' H IH|x l l' H IH]; csimpl; [done| |]; destruct (f x); try done; by constructor. Qed.
  Lemma client_rising kw (ops : list op) : client_on ops ->
    rising 0 (length (p_inserted kw ops)) (proj kw (mem_all (spec_run ops).2)).
  Proof.
    induction ops as [|o ops IH] using rev_ind; intros Hon; [done|].
    assert (Hon' : client_on ops) by (intros k Hk; apply (Hon k), elem_of_app; by left). specialize (IH Hon').
    assert (Hm : length (p_inserted kw ops) <= length (p_inserted kw (ops ++ [o]))).
    { unfold p_inserted. rewrite omap_app, app_length. lia. }
    rewrite spec_run_step. destruct o as [k doc [|]| | |kept|kept]; cbn [spec_step snd]; try (by eapply rising_mono).
    - unfold mem_all. cbn [mem_add mem_safe mem_recent]. rewrite app_assoc, proj_app.
      unfold proj at 2. csimpl. destruct (decide (k = kw)) as [->|Hne].
      + assert (E : number kw (mem_safe (spec_run ops).1 ++ mem_recent (spec_run ops).1) = length (p_inserted kw ops)).
        { exact (client_number kw [] ops Hon'). }
        rewrite E.
        unfold p_inserted at 1. rewrite omap_app, app_length. csimpl. rewrite decide_True by done. cbn [length].
        rewrite Nat.add_1_r. apply rising_snoc; [done|lia|done].
      + rewrite app_nil_r. by eapply rising_mono.
    - unfold mem_save, mem_all. cbn [mem_safe mem_recent]. rewrite app_nil_r. by eapply rising_mono.
    - unfold mem_lose, mem_all. cbn [mem_safe mem_recent]. rewrite app_nil_r. eapply rising_mono; [exact Hm|].
      eapply rising_sub; [|exact IH]. apply sublist_omap. unfold mem_all. apply sublist_app; [done|]. apply sublist_take.
  Qed.
  Lemma last_written_proj kw i (l : list ent) :
    last_written kw i l = last (omap (fun x : nat * p_doc P => if decide (x.1 = i) then Some x.2 else None) (proj kw l)).
  Proof.
    unfold last_written. f_equal. unfold proj. induction l as [|[[k j] d] l IH]; csimpl; [done|].
    destruct (decide (k = kw)) as [->|Hne].
    - csimpl. destruct (decide (j = i)) as [->|Hni].
      + rewrite decide_True by done. by f_equal.
      + rewrite decide_False by (by intros [=]). exact IH.
    - rewrite decide_False by (by intros [=]). exact IH.
  Qed.
  Lemma rising_none lo n l i : rising lo n l -> i < lo ->
    omap (fun x : nat * p_doc P => if decide (x.1 = i) then Some x.2 else None) l = [].
  Proof.
    revert lo. induction l as [|x l IH]; intros lo H Hi; [done|]. destruct H as (H1 & H2 & H3). csimpl.
    rewrite decide_False by lia. eapply IH; [exact H3|lia].
  Qed.
  Lemma omap_none {A B} (f : A -> option B) l : Forall (fun i => f i = None) l -> omap f l = [].
  Proof. induction 1 as [|i l E _ IH]; csimpl; [done|]. by rewrite E. Qed.
  Lemma omap_same {A B} (f g : A -> option B) l : Forall (fun i => f i = g i) l -> omap f l = omap g l.
  Proof. induction 1 as [|i l E _ IH]; csimpl; [done|]. by rewrite E, IH. Qed.
  Definition at_number (l : list (nat * p_doc P)) (i : nat) : option (p_doc P) :=
    last (omap (fun x : nat * p_doc P => if decide (x.1 = i) then Some x.2 else None) l).
  Lemma rising_seq n l : forall lo, rising lo n l -> lo <= n -> omap (at_number l) (seq lo (n - lo)) = l.*2.
  Proof.
    induction l as [|x l IH]; intros lo H Hlo.
    - apply omap_none, Forall_forall. done.
    - destruct H as (H1 & H2 & H3).
      assert (E : seq lo (n - lo) = seq lo (x.1 - lo) ++ x.1 :: seq (S x.1) (n - S x.1)).
      { replace (n - lo) with ((x.1 - lo) + S (n - S x.1)) by lia. rewrite seq_app. f_equal. simpl. f_equal; [lia|f_equal; lia]. }
      rewrite E, omap_app, omap_none; [cbn [app]|].
      + assert (Ex : at_number (x :: l) x.1 = Some x.2).
        { unfold at_number. csimpl. rewrite decide_True by done. by rewrite (rising_none (S x.1) n l x.1) by (done || lia). }
        csimpl. rewrite Ex. f_equal. rewrite <- (IH (S x.1)) by (done || lia). apply omap_same, Forall_forall.
        intros i Hi%elem_of_seq. unfold at_number. csimpl. by rewrite (decide_False (P := x.1 = i)) by lia.
      + apply Forall_forall. intros i Hi%elem_of_seq. unfold at_number. csimpl. rewrite decide_False by lia.
        by rewrite (rising_none (S x.1) n l i) by (done || lia).
  Qed.
  Lemma spec_find_content kw (ops : list op) : client_on ops ->
    spec_find (fun n => seq 0 n) (spec_run ops) kw = content kw ops.
  Proof.
    intros Hon. unfold spec_find, content. pose proof (client_number kw [] ops Hon) as E. cbn [app] in E. rewrite E.
    change (number kw (mem_all (spec_run []).1)) with 0. rewrite Nat.add_0_l.
    rewrite <- (rising_seq (length (p_inserted kw ops)) _ 0) by (by apply client_rising || lia). rewrite Nat.sub_0_r.
    apply omap_same, Forall_forall. intros i _. apply last_written_proj.
  Qed.
  Lemma omap_reverse {A B} (f : A -> option B) l : omap f (reverse l) = reverse (omap f l).
  Proof.
    induction l as [|x l IH]; [done|]. rewrite reverse_cons, omap_app, IH. csimpl. destruct (f x); [by rewrite reverse_cons|by rewrite app_nil_r].
  Qed.
  Lemma spec_find_newest kw (ops : list op) : client_on ops ->
    spec_find newest_first (spec_run ops) kw = reverse (content kw ops).
  Proof. intros Hon. rewrite <- spec_find_content by done. unfold spec_find, newest_first. apply omap_reverse. Qed.
End spec_proofs.

(** ** What the requests reveal *)
Section privacy.
  Context {P : proto} (token : bytes -> nat -> bytes) (unmask : bytes -> nat -> p_val P -> p_doc P)
    (acc : bytes -> nat -> p_acc P) (ok : p_doc P -> Prop) (order : nat -> list nat).
  Context (HP : proto_ok P token unmask acc ok order).
  Notation op := (pop P).

  Lemma sends_fun (ops : list op) t v t' v' : sends ops t v -> sends ops t' v' -> t = t' /\ v = v'.
  Proof. intros [o1 E1] [o2 E2]. rewrite E1 in E2. by apply app_inj_tail in E2 as [_ [= -> ->]]. Qed.
  Lemma client_on_app (l l' : list op) : client_on (l ++ l') -> client_on l /\ client_on l'.
  Proof. intros H. split; intros k Hk; apply (H k), elem_of_app; [by left|by right]. Qed.
  Lemma sent_tokens_snoc (ops : list op) o :
    sent_tokens (ops ++ [o]) = sent_tokens ops ++ match (pstep P (prun P (pinit P) ops).1 o).2 with OSent _ t _ => [t] | _ => [] end.
  Proof.
    unfold sent_tokens. rewrite prun_snoc. cbn [snd]. rewrite omap_app. f_equal. csimpl.
    by destruct (pstep P (prun P (pinit P) ops).1 o).2.
  Qed.
  Lemma sent_tokens_other (ops : list op) o :
    match o with PIns _ _ _ _ => False | _ => True end -> sent_tokens (ops ++ [o]) = sent_tokens ops.
  Proof. intros H. rewrite sent_tokens_snoc. destruct o; try done; by rewrite app_nil_r. Qed.
  Lemma sent_tokens_ins (ops : list op) kw doc dl : p_few (ops ++ [PIns P kw doc dl]) ->
    sent_tokens (ops ++ [PIns P kw doc dl]) = sent_tokens ops ++ [token kw (number kw (mem_all (spec_run ops).1))].
  Proof.
    intros Hf. rewrite sent_tokens_snoc. f_equal.
    destruct (send_generic _ _ _ _ _ HP ops kw doc dl Hf) as [outs E]. rewrite prun_snoc in E. cbn [snd] in E.
    apply app_inj_tail in E as [_ E]. by rewrite E.
  Qed.
  Lemma tokens_distinct_aux (all ops : list op) : p_no_collision token all ->
    client_on ops -> p_few ops -> (forall kw, length (p_inserted kw ops) <= length (p_inserted kw all)) ->
    NoDup (sent_tokens ops) /\ forall t, t ∈ sent_tokens ops -> exists kw i, t = token kw i /\ i < length (p_inserted kw ops).
  Proof.
    intros Hnc.
    induction ops as [|o ops IH] using rev_ind; intros Hon Hf Hle.
    { split; [constructor|]. intros t Ht. by apply elem_of_nil in Ht. }
    apply client_on_app in Hon as [Hon _]. pose proof (p_few_app _ _ Hf) as Hf'.
    destruct IH as [IH1 IH2]; [done|done| |].
    { intros kw. specialize (Hle kw). pose proof (p_inserted_mono kw ops o). lia. }
    assert (Hold : forall t, t ∈ sent_tokens ops -> exists kw i, t = token kw i /\ i < length (p_inserted kw (ops ++ [o]))).
    { intros t Ht. destruct (IH2 t Ht) as (k & i & E & Hi). exists k, i. split; [done|]. pose proof (p_inserted_mono k ops o). lia. }
    destruct o as [kw doc dl| | | |]; try (by rewrite sent_tokens_other by done).
    rewrite sent_tokens_ins by done. pose proof (client_number kw [] ops Hon) as E. cbn [app] in E.
    change (number kw (mem_all (spec_run []).1)) with 0 in E. rewrite Nat.add_0_l in E. rewrite E.
    assert (En : length (p_inserted kw (ops ++ [PIns P kw doc dl])) = S (length (p_inserted kw ops))).
    { rewrite p_inserted_app, app_length. cbn. rewrite decide_True by done. simpl. lia. }
    split.
    - apply NoDup_app. split; [done|]. split; [|apply NoDup_singleton]. intros t Ht ->%elem_of_list_singleton.
      destruct (IH2 _ Ht) as (k & i & Et & Hi). pose proof (Hle kw). pose proof (Hle k). pose proof (p_inserted_mono k ops (PIns P kw doc dl)).
      apply Hnc in Et as [-> <-]; lia.
    - intros t [Ht| ->%elem_of_list_singleton]%elem_of_app; [by apply Hold|]. exists kw, (length (p_inserted kw ops)). split; [done|]. lia.
  Qed.
  Lemma tokens_distinct (ops : list op) : client_on ops -> p_no_collision token ops -> p_few ops -> NoDup (sent_tokens ops).
  Proof. intros Hon Hnc Hf. by apply (tokens_distinct_aux ops ops Hnc Hon Hf). Qed.

  (** A later update is not seen by an earlier request. *)
  Lemma request_generic (ops : list op) kw req : p_few ops -> requests ops kw req ->
    p_accesses P req = acc kw <$> order (number kw (mem_all (spec_run ops).1)).
  Proof.
    intros Hf [res E]. rewrite prun_snoc in E. cbn [snd pstep] in E. apply app_inv_head in E. injection E as <- _.
    pose proof (pinv_run ops Hf) as H. pose proof (pi_number _ _ _ H kw) as Hn. pose proof (Hf kw) as Hfk.
    rewrite (pinv_ctr _ _ _ H). unfold ctr_get. rewrite ctr_of_lookup by lia.
    set (n := number kw (mem_all (spec_run ops).1)) in *. destruct n as [|n'] eqn:En; cbn [ctr_value].
    - rewrite (po_none _ _ _ _ _ _ HP). pose proof (po_order _ _ _ _ _ _ HP 0) as E. simpl in E.
      apply Permutation_nil_r in E. by rewrite E.
    - apply (po_some _ _ _ _ _ _ HP). lia.
  Qed.
  Lemma request_elem (ops : list op) kw req a : p_few ops -> requests ops kw req -> a ∈ p_accesses P req ->
    exists i, a = acc kw i /\ i < number kw (mem_all (spec_run ops).1).
  Proof.
    intros Hf Hr Ha. rewrite (request_generic _ _ _ Hf Hr) in Ha. apply elem_of_list_fmap in Ha as (i & -> & Hi).
    exists i. split; [done|]. rewrite (po_order _ _ _ _ _ _ HP _) in Hi. apply elem_of_seq in Hi. lia.
  Qed.
  Lemma forward_generic (h1 h2 : list op) kw req kw' doc dl t v :
    let all := h1 ++ h2 ++ [PIns P kw' doc dl] in
    client_on h2 -> p_no_collision token all -> p_few all ->
    requests h1 kw req -> sends all t v ->
    forall db a, a ∈ p_accesses P req -> p_access P (<[t := v]> db) a = p_access P db a.
  Proof.
    intros all Hon Hnc Hf Hr Hs db a Ha. subst all. rewrite app_assoc in *.
    pose proof (p_few_app _ _ (p_few_app _ _ Hf)) as Hf1.
    destruct (request_elem _ _ _ _ Hf1 Hr Ha) as (i & -> & Hi).
    destruct (sends_fun _ _ _ _ _ Hs (send_generic _ _ _ _ _ HP _ _ _ _ Hf)) as [-> ->].
    rewrite !(po_access _ _ _ _ _ _ HP). rewrite lookup_insert_ne; [done|]. intros E.
    pose proof (pinv_run _ (p_few_app _ _ Hf)) as H. pose proof (pi_number _ _ _ H kw') as Hn.
    pose proof (client_number kw h1 h2 Hon) as En. pose proof (pi_number _ _ _ (pinv_run _ Hf1) kw) as Hn1.
    apply Hnc in E as [-> E]; [|rewrite p_inserted_app, app_length; cbn; rewrite decide_True by done; simpl; lia|].
    - rewrite En in E. lia.
    - rewrite !p_inserted_app, !app_length. lia.
  Qed.
  (** An update with the token of an earlier one is seen by the requests between. *)
  Lemma reached_generic (h h' : list op) kw req doc dl t v : ok doc ->
    p_few h -> p_few (h' ++ [PIns P kw doc dl]) -> requests h kw req ->
    number kw (mem_all (spec_run h').1) < number kw (mem_all (spec_run h).1) -> sends (h' ++ [PIns P kw doc dl]) t v ->
    exists a, a ∈ p_accesses P req /\ forall db, p_access P (<[t := v]> db) a = [doc].
  Proof.
    intros Hok Hf Hf' Hr Hlt Hs. destruct (sends_fun _ _ _ _ _ Hs (send_generic _ _ _ _ _ HP _ _ _ _ Hf')) as [-> ->].
    exists (acc kw (number kw (mem_all (spec_run h').1))). split.
    - rewrite (request_generic _ _ _ Hf Hr). apply elem_of_list_fmap. eexists. split; [done|].
      rewrite (po_order _ _ _ _ _ _ HP _). apply elem_of_seq. lia.
    - intros db. rewrite (po_access _ _ _ _ _ _ HP), lookup_insert. by rewrite (po_unmask _ _ _ _ _ _ HP).
  Qed.
End privacy.
