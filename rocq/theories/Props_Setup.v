(** Concurrent setups and requests. *)
From stdpp Require Import prelude relations.
From Coq Require Import NArith Lia.
From Verif Require Import Base EncModel RunnerModel SetupModel SetupSpec.

Definition effects (l : list action) : list effect := omap (fun a => match a with AEff e => Some e | AReset => None end) l.
Lemma effects_app l l' : effects (l ++ l') = effects l ++ effects l'.
Proof. apply omap_app. Qed.
(** A setup that resets server_ does not set it. *)
Definition keeps (l : list action) : Prop := AReset ∈ l -> forall k, AEff (EServer k) ∉ l.

(** The servers that are created. *)
Definition creations (l : list action) : list bytes := omap (fun a => match a with AEff (EServer k) => Some k | _ => None end) l.
Lemma creations_in l k : AEff (EServer k) ∈ l -> k ∈ creations l.
Proof. intros H. apply elem_of_list_omap. eexists. split; [exact H|done]. Qed.

Record good_service (v : service) (setup : fs -> proc -> env -> bytes -> list effect * status) : Prop := {
  gs_setup : forall p e key, p_server p = None -> e_mkdir e = true ->
    setup FNone p e key = (EMkdir :: effects (v_rest v e key).1, (v_rest v e key).2);
  gs_keeps : forall e key, keeps (v_rest v e key).1;
  gs_once : forall e key, length (creations (v_rest v e key).1) <= 1 }.

Lemma effects_bytes (l : list N) : effects ((fun b => AEff (EKeyByte b)) <$> l) = EKeyByte <$> l.
Proof. induction l as [|b l IH]; [done|]. cbn. by f_equal. Qed.
Lemma no_reset_bytes (l : list N) : AReset ∉ ((fun b => AEff (EKeyByte b)) <$> l).
Proof. intros H. apply elem_of_list_fmap in H as (b & Hb & _). done. Qed.
Lemma no_creation_bytes (l : list N) : creations ((fun b => AEff (EKeyByte b)) <$> l) = [].
Proof. induction l as [|b l IH]; [done|]. cbn. done. Qed.
Lemma services_good v setup : is_service v setup -> good_service v setup.
Proof.
  intros [|valid].
  - split.
    + intros p e key Hp He. unfold d_setup, diana_service, d_rest. cbn [v_rest]. rewrite Hp, He. cbn [negb].
      destruct (e_core e); cbn [negb]; [|destruct (e_pairs e); done].
      destruct (e_open e); cbn [negb]; [|done]. case_bool_decide; [|done]. cbn [negb fst snd].
      f_equal. rewrite !effects_app, effects_bytes. done.
    + intros e key Hr k Hk. unfold diana_service, d_rest in *. cbn [v_rest] in *.
      destruct (e_core e); cbn [negb fst] in *.
      * destruct (e_open e); cbn [negb fst] in *; [|set_solver]. case_bool_decide; cbn [negb fst] in *; [|set_solver].
        rewrite !elem_of_app in Hr. destruct Hr as [Hr|[Hr|Hr]]; [set_solver|by apply no_reset_bytes in Hr|set_solver].
      * destruct (e_pairs e); set_solver.
    + intros e key. unfold diana_service, d_rest in *. cbn [v_rest] in *. unfold creations.
      repeat case_match; cbn [fst]; rewrite ?omap_app; fold (creations ((fun b => AEff (EKeyByte b)) <$> take (e_written e) key));
        rewrite ?no_creation_bytes; csimpl; lia.
  - split.
    + intros p e key Hp He. unfold so_setup, sophos_service, so_rest. cbn [v_rest]. rewrite Hp, He. cbn [negb].
      destruct (e_core e); cbn [negb]; [|destruct (e_pairs e); done].
      destruct (valid key); cbn [negb]; [|done].
      destruct (e_open e); cbn [negb]; [|done]. cbn [fst snd].
      f_equal. rewrite !effects_app, effects_bytes. done.
    + intros e key Hr k Hk. unfold sophos_service, so_rest in *. cbn [v_rest] in *.
      destruct (e_core e); cbn [negb fst] in *.
      * destruct (valid key); cbn [negb fst] in *; [|set_solver]. destruct (e_open e); cbn [negb fst] in *; [|set_solver].
        rewrite !elem_of_app in Hr. destruct Hr as [Hr|Hr]; [set_solver|by apply no_reset_bytes in Hr].
      * destruct (e_pairs e); set_solver.
    + intros e key. unfold sophos_service, so_rest in *. cbn [v_rest] in *. unfold creations.
      repeat case_match; cbn [fst]; rewrite ?omap_app; fold (creations ((fun b => AEff (EKeyByte b)) <$> take (e_written e) key));
        rewrite ?no_creation_bytes; csimpl; lia.
Qed.

Section service.
  Context (v : service) (setup : fs -> proc -> env -> bytes -> list effect * status) (Hv : good_service v setup).
  Context (f0 : fs) (p0 : proc) (cs : list call).

  (** *** Who has made the directory *)
  Definition plain (c : call) (q : pc) : Prop :=
    match q with
    | PCheck e key | PExists e key | PMkdir e key => c = CSetup e key
    | PRun _ _ => False
    | PSetupEnd st => (exists e key, c = CSetup e key) /\ st <> SOk
    | _ => forall e key, c <> CSetup e key
    end.
  Definition winning (e : env) (key : bytes) (l : list action) (q : pc) : Prop :=
    q = PRun l (v_rest v e key).2 \/ (l = [] /\ q = PSetupEnd (v_rest v e key).2).
  Inductive phase (s : srv) : Prop :=
  | ph_none : v_fs s = f0 -> v_proc s = p0 ->
      (forall i e key, (v_pcs s !! i = Some (PExists e key) \/ v_pcs s !! i = Some (PMkdir e key)) -> p_server p0 = None) ->
      (forall i q, v_pcs s !! i = Some q -> exists c, cs !! i = Some c /\ plain c q) -> phase s
  | ph_won w e key l l' q : cs !! w = Some (CSetup e key) -> f0 = FNone -> p_server p0 = None -> e_mkdir e = true ->
      (v_rest v e key).1 = l ++ l' -> v_pcs s !! w = Some q -> winning e key l' q ->
      v_fs s = foldl act_disk (FDir (SDir false None)) l -> v_proc s = foldl act_memory p0 l ->
      (forall i q, i <> w -> v_pcs s !! i = Some q -> exists c, cs !! i = Some c /\ plain c q) -> phase s.

  Lemma act_dir l : forall d, exists d', foldl act_disk (FDir d) l = FDir d'.
  Proof.
    induction l as [|a l IH]; intros d; [by eexists|]. cbn [foldl]. destruct a as [[| |k|  |b|k]|]; cbn; apply IH.
  Qed.
  Lemma phase_init : phase (srv_init f0 p0 cs).
  Proof.
    apply ph_none; [done|done| |].
    - intros i e key [H|H]; cbn [srv_init v_pcs] in H; rewrite list_lookup_fmap in H; destruct (cs !! i) as [[]|]; done.
    - intros i q H. cbn [srv_init v_pcs] in H. rewrite list_lookup_fmap in H. destruct (cs !! i) as [c|] eqn:E; [|done].
      exists c. split; [done|]. injection H as <-. by destruct c.
  Qed.

  Lemma insert_lookup (l : list pc) i q j q' : <[i := q]> l !! j = Some q' -> (j = i /\ q' = q) \/ (j <> i /\ l !! j = Some q').
  Proof.
    intros H. destruct (decide (j = i)) as [->|Hn]; [|right; by rewrite list_lookup_insert_ne in H].
    left. apply list_lookup_insert_Some in H as [(_ & <- & _)|[? _]]; done.
  Qed.

  (** A step of a thread that has not made the directory. *)
  Inductive plain_step (s : srv) (i : nat) (c : call) (q : pc) : srv -> Prop :=
  | ps_stay q' m : plain c q' ->
      (forall e key, q' = PExists e key \/ q' = PMkdir e key -> q = PCheck e key /\ p_server (v_proc s) = None \/ q = PExists e key) ->
      plain_step s i c q (Srv (v_fs s) (v_proc s) m (<[i := q']> (v_pcs s)))
  | ps_win e key : c = CSetup e key -> q = PMkdir e key -> v_fs s = FNone -> e_mkdir e = true ->
      plain_step s i c q (Srv (FDir (SDir false None)) (v_proc s) (v_held s) (<[i := PRun (v_rest v e key).1 (v_rest v e key).2]> (v_pcs s))).
  Lemma plain_steps s i c q s' : v_pcs s !! i = Some q -> plain c q -> sstep v s i = Some (Ok s') -> plain_step s i c q s'.
  Proof.
    intros Hq Hp Hs. unfold sstep in Hs. rewrite Hq in Hs. destruct q; cbn [plain] in Hp; try done.
    - injection Hs as <-. apply ps_stay; destruct (p_server (v_proc s)) eqn:E; cbn [plain]; try done.
      + split; [by eauto|done].
      + intros ? ? [Hx|Hx]; by simplify_eq.
      + intros ? ? [Hx|Hx]; simplify_eq. by left.
    - injection Hs as <-. apply ps_stay; destruct (v_fs s) eqn:E; cbn [plain]; try done; try (split; [by eauto|done]);
        intros ? ? [Hx|Hx]; simplify_eq. by right.
    - assert (plain_step s i c (PMkdir e key) (Srv (v_fs s) (v_proc s) (v_held s) (<[i := PSetupEnd SPermissionDenied]> (v_pcs s)))) as Hfail.
      { apply ps_stay; [split; [by eauto|done]|]. intros ? ? [Hx|Hx]; by simplify_eq. }
      destruct (v_fs s) eqn:E; [|by injection Hs as <-|by injection Hs as <-].
      destruct (e_mkdir e) eqn:Em; injection Hs as <-; [|done]. by eapply ps_win.
    - injection Hs as <-. apply ps_stay; repeat case_match; try done; intros ? ? [Hx|Hx]; by simplify_eq.
    - destruct (p_wrapper (v_proc s)); [|done]. injection Hs as <-. apply ps_stay; [done|]. intros ? ? [Hx|Hx]; by simplify_eq.
    - destruct (p_server (v_proc s)); [|done]. injection Hs as <-. apply ps_stay; [done|]. intros ? ? [Hx|Hx]; by simplify_eq.
    - destruct (v_held s); [done|]. injection Hs as <-. apply ps_stay; [done|]. intros ? ? [Hx|Hx]; by simplify_eq.
    - destruct (p_server (v_proc s)); injection Hs as <-; (apply ps_stay; [done|]; intros ? ? [Hx|Hx]; by simplify_eq).
    - destruct (p_server (v_proc s)); [|done]. injection Hs as <-. apply ps_stay; [done|]. intros ? ? [Hx|Hx]; by simplify_eq.
    - injection Hs as <-. apply ps_stay; repeat case_match; try done; intros ? ? [Hx|Hx]; by simplify_eq.
    - destruct n; [|destruct (p_server (v_proc s)); [|done]]; injection Hs as <-; (apply ps_stay; [done|]; intros ? ? [Hx|Hx]; by simplify_eq).
  Qed.

  Lemma phase_step s s' : phase s -> one_step v s s' -> phase s'.
  Proof.
    intros Hph [i Hs].
    assert (exists q, v_pcs s !! i = Some q) as [q Hq].
    { unfold sstep in Hs. destruct (v_pcs s !! i) as [q|]; [by eexists|done]. }
    assert (i < length (v_pcs s)) as Hi by (by eapply lookup_lt_Some).
    destruct Hph as [Hf Hp Hn Hpl|w e key l l' qw Hw Hf0 Hp0 Hm El Hqw Hwin Hf Hp Hpl].
    - destruct (Hpl i q Hq) as (c & Hc & Hpc). destruct (plain_steps s i c q s' Hq Hpc Hs) as [q' m Hq' Hnew|e key -> -> Hfn Hm].
      + apply ph_none; cbn [v_fs v_proc v_pcs]; [done|done| |].
        * intros j e key Hj.
          assert ((j = i /\ (q' = PExists e key \/ q' = PMkdir e key)) \/
            (v_pcs s !! j = Some (PExists e key) \/ v_pcs s !! j = Some (PMkdir e key))) as [[-> Hj']|Hj'].
          { destruct Hj as [Hj|Hj]; apply insert_lookup in Hj as [[-> <-]|[_ Hj]]; tauto. }
          -- destruct (Hnew e key Hj') as [[_ H]| ->]; [by rewrite Hp in H|]. eapply Hn. left. exact Hq.
          -- by eapply Hn.
        * intros j qj Hj. apply insert_lookup in Hj as [[-> ->]|[_ Hj]]; [by exists c|by apply Hpl].
      + eapply (ph_won _ i e key [] _ _); cbn [v_fs v_proc v_pcs]; [done|congruence| |done|done|by apply list_lookup_insert|by left|done|done|].
        * eapply Hn. right. exact Hq.
        * intros j qj Hj Hqj. rewrite list_lookup_insert_ne in Hqj by done. by apply Hpl.
    - destruct (decide (i = w)) as [->|Hiw].
      + rewrite Hqw in Hq. injection Hq as <-. destruct Hwin as [-> |[-> ->]]; [|unfold sstep in Hs; by rewrite Hqw in Hs].
        unfold sstep in Hs. rewrite Hqw in Hs. destruct l' as [|a l'].
        * injection Hs as <-. eapply (ph_won _ w e key l [] _); cbn [v_fs v_proc v_pcs]; [done..|by apply list_lookup_insert|by right|done|done|].
          intros j qj Hj Hqj. rewrite list_lookup_insert_ne in Hqj by done. by apply Hpl.
        * injection Hs as <-. eapply (ph_won _ w e key (l ++ [a]) l' _); cbn [v_fs v_proc v_pcs];
            [done..|by rewrite <- (assoc_L (++))|by apply list_lookup_insert|by left| | |].
          -- rewrite foldl_app, <- Hf. done.
          -- rewrite foldl_app, <- Hp. done.
          -- intros j qj Hj Hqj. rewrite list_lookup_insert_ne in Hqj by done. by apply Hpl.
      + destruct (Hpl i q Hiw Hq) as (c & Hc & Hpc). destruct (plain_steps s i c q s' Hq Hpc Hs) as [q' m Hq' Hnew|e' key' -> -> Hfn Hm'].
        * eapply (ph_won _ w e key l l' qw); cbn [v_fs v_proc v_pcs]; [done..| |done|done|done|].
          -- by rewrite list_lookup_insert_ne.
          -- intros j qj Hj Hqj. apply insert_lookup in Hqj as [[-> ->]|[_ Hqj]]; [by exists c|by apply Hpl].
        * exfalso. destruct (act_dir l (SDir false None)) as [d Hd]. rewrite Hf, Hd in Hfn. done.
  Qed.
  Lemma phase_reach s : srv_reach v f0 p0 cs s -> phase s.
  Proof.
    unfold srv_reach. intros H. remember (srv_init f0 p0 cs) as s0 eqn:E0. assert (phase s0) as H0 by (subst; apply phase_init). clear E0.
    induction H as [s|s s1 s2 Hs _ IH]; [done|]. apply IH. by eapply phase_step.
  Qed.

  (** *** The state is that of a setup that runs alone *)
  Lemma disk_effects l : forall f, foldl act_disk f l = foldl on_disk f (effects l).
  Proof. induction l as [|[e|] l IH]; intros f; [done| |]; cbn; apply IH. Qed.
  Lemma memory_effects l : forall p, p_server p = None -> keeps l -> foldl act_memory p l = foldl in_memory p (effects l).
  Proof.
    induction l as [|a l IH]; intros p Hp Hk; [done|].
    assert (keeps l) as Hk' by (intros Hr k Hin; apply (Hk ltac:(by right) k); by right).
    destruct a as [e|].
    - cbn [foldl act_memory]. change (effects (AEff e :: l)) with (e :: effects l). cbn [foldl].
      destruct e as [| |k| |b|k]; cbn [in_memory]; try (by apply IH). 
      assert (AReset ∉ l) as Hnr by (intros Hr; apply (Hk ltac:(by right) k); by left).
      clear -Hnr. generalize (Proc (Some k) (p_wrapper p)). induction l as [|a l IH]; intros p'; [done|].
      apply not_elem_of_cons in Hnr as [Ha Hnr]. destruct a as [e|]; [|done]. cbn. by apply IH.
    - cbn [foldl act_memory]. change (effects (AReset :: l)) with (effects l). rewrite <- IH by done.
      f_equal. destruct p; cbn in *. by subst.
  Qed.
  Lemma keeps_prefix l l' : keeps (l ++ l') -> keeps l.
  Proof. intros H Hr k Hk. apply (H ltac:(apply elem_of_app; by left) k). apply elem_of_app. by left. Qed.
  Lemma won_alone e key l l' : f0 = FNone -> p_server p0 = None -> e_mkdir e = true -> (v_rest v e key).1 = l ++ l' ->
    (foldl act_disk (FDir (SDir false None)) l, foldl act_memory p0 l) = alone setup f0 p0 e key (Datatypes.S (length (effects l))).
  Proof.
    intros -> Hp Hm El. unfold alone. rewrite (gs_setup _ _ Hv) by done. cbn [fst]. rewrite El, effects_app.
    cbn [take]. rewrite take_app. cbn [foldl]. f_equal.
    - apply disk_effects.
    - apply memory_effects; [done|]. apply (keeps_prefix l l'). rewrite <- El. apply (gs_keeps _ _ Hv).
  Qed.

  Lemma state_alone s : srv_reach v f0 p0 cs s ->
    (v_fs s, v_proc s) = (f0, p0) \/ exists e key k, CSetup e key ∈ cs /\ (v_fs s, v_proc s) = alone setup f0 p0 e key k.
  Proof.
    intros Hr. destruct (phase_reach s Hr) as [-> -> _ _|w e key l l' q Hw Hf0 Hp0 Hm El Hq Hwin -> -> _]; [by left|right].
    eexists e, key, _. split; [by eapply elem_of_list_lookup_2|]. by eapply won_alone.
  Qed.
  Lemma success s i : srv_reach v f0 p0 cs s -> v_pcs s !! i = Some (PSetupEnd SOk) ->
    (forall j, v_pcs s !! j = Some (PSetupEnd SOk) -> j = i) /\
    exists e key, cs !! i = Some (CSetup e key) /\ (setup f0 p0 e key).2 = SOk /\
      (v_fs s, v_proc s) = alone setup f0 p0 e key (length (setup f0 p0 e key).1).
  Proof.
    intros Hr Hi. destruct (phase_reach s Hr) as [_ _ _ Hpl|w e key l l' q Hw Hf0 Hp0 Hm El Hq Hwin Hf Hp Hpl].
    - destruct (Hpl _ _ Hi) as (c & _ & [_ H]). done.
    - assert (forall j, v_pcs s !! j = Some (PSetupEnd SOk) -> j = w) as Hall.
      { intros j Hj. destruct (decide (j = w)) as [|Hn]; [done|]. destruct (Hpl j _ Hn Hj) as (c & _ & [_ H]). done. }
      assert (i = w) as -> by (by apply Hall). split; [done|]. exists e, key. rewrite Hq in Hi. injection Hi as ->.
      destruct Hwin as [H|[-> H]]; [done|]. injection H as H. split; [done|]. rewrite Hf, Hp.
      rewrite Hf0. rewrite (gs_setup _ _ Hv) by done. cbn [fst snd length]. split; [done|].
      rewrite <- Hf0. rewrite app_nil_r in El. rewrite El. eapply won_alone; [done..|]. by rewrite app_nil_r.
  Qed.

  (** *** The pointer to the server *)
  Lemma reach_ind (P : srv -> Prop) : P (srv_init f0 p0 cs) ->
    (forall s s', srv_reach v f0 p0 cs s -> one_step v s s' -> P s -> P s') -> forall s, srv_reach v f0 p0 cs s -> P s.
  Proof. intros H0 Hst. exact (rtc_ind_r P (srv_init f0 p0 cs) H0 Hst). Qed.
  Lemma memory_server l : forall p, p_server p = None -> is_Some (p_server (foldl act_memory p l)) -> exists k, AEff (EServer k) ∈ l.
  Proof.
    induction l as [|a l IH]; intros p Hp [x Hx]; cbn [foldl] in Hx; [by rewrite Hp in Hx|].
    destruct (p_server (act_memory p a)) as [y|] eqn:E.
    - destruct a as [[| |k| |b|k]|]; cbn in E; try congruence. exists k. by left.
    - destruct (IH _ E ltac:(by eexists)) as [k Hk]. exists k. by right.
  Qed.
  Lemma server_stays s s' k : srv_reach v f0 p0 cs s -> one_step v s s' -> p_server (v_proc s) = Some k -> p_server (v_proc s') = Some k.
  Proof.
    intros Hr [i Hs] Hk. pose proof (phase_reach s Hr) as Hph.
    assert (exists q, v_pcs s !! i = Some q) as [q Hq].
    { unfold sstep in Hs. destruct (v_pcs s !! i) as [q|]; [by eexists|done]. }
    assert (forall c, plain c q -> p_server (v_proc s') = Some k) as Hplain.
    { intros c Hp. by destruct (plain_steps s i c q s' Hq Hp Hs). }
    destruct Hph as [_ _ _ Hpl|w e key l l' qw Hw Hf0 Hp0 Hm El Hqw Hwin Hf Hp Hpl].
    - destruct (Hpl _ _ Hq) as (c & _ & Hp). by eapply Hplain.
    - destruct (decide (i = w)) as [->|Hn]; [|destruct (Hpl _ _ Hn Hq) as (c & _ & Hpc); by eapply Hplain].
      rewrite Hqw in Hq. injection Hq as <-. unfold sstep in Hs. rewrite Hqw in Hs.
      destruct Hwin as [->|[_ ->]]; [|done]. destruct l' as [|a l']; injection Hs as <-; [done|]. cbn [v_proc].
      destruct (memory_server l p0 Hp0) as [k' Hk'].
      { rewrite <- Hp, Hk. by eexists. }
      pose proof (gs_keeps _ _ Hv e key) as Hkeep. rewrite El in Hkeep.
      pose proof (gs_once _ _ Hv e key) as Honce. rewrite El in Honce.
      destruct a as [[| |k2| |b|k2]|]; cbn [act_memory in_memory p_server]; try done.
      + exfalso. unfold creations in Honce. rewrite omap_app in Honce. fold (creations l) in Honce. csimpl in Honce.
        rewrite app_length in Honce. cbn [length] in Honce. apply creations_in in Hk'. destruct (creations l); [by apply elem_of_nil in Hk'|].
        cbn [length] in Honce. lia.
      + exfalso. apply (Hkeep ltac:(apply elem_of_app; right; by left) k'). apply elem_of_app. by left.
  Qed.
  Lemma wrapper_stays s s' : one_step v s s' -> p_wrapper (v_proc s) <> None -> p_wrapper (v_proc s') <> None.
  Proof.
    intros [i Hs] Hw. unfold sstep in Hs. destruct (v_pcs s !! i) as [q|]; [|done].
    assert (forall f m l, Some (Ok (Srv f (v_proc s) m l)) = Some (Ok s') -> p_wrapper (v_proc s') <> None) as Hsame by (intros f m l [= <-]; done).
    destruct q as [e key|e key|e key|[|a l] st|st| | | | | | |n|[|n]|st]; try done; repeat (case_match; try done); try (by eapply Hsame).
    injection Hs as <-. cbn [v_proc]. by destruct a as [[]|].
  Qed.

  Definition needs_server (q : pc) : Prop :=
    match q with PWrapper | PServer | PStore | PBulkStore _ => True | _ => False end.
  Lemma new_pc s s' : one_step v s s' -> forall j q, v_pcs s' !! j = Some q -> needs_server q ->
    (v_pcs s !! j = Some q) \/ (exists q', v_pcs s !! j = Some q' /\ needs_server q') \/ is_Some (p_server (v_proc s)).
  Proof.
    intros [i Hs] j q Hj Hn. unfold sstep in Hs. destruct (v_pcs s !! i) as [qi|] eqn:Hqi; [|done].
    assert (forall f p m q', Srv f p m (<[i := q']> (v_pcs s)) = s' -> (j = i /\ q = q') \/ v_pcs s !! j = Some q) as Hins.
    { intros f p m q' <-. cbn [v_pcs] in Hj. apply insert_lookup in Hj as [[-> ->]|[_ Hj]]; [by left|by right]. }
    destruct qi; try done; repeat (case_match; try done); injection Hs as Hs;
      destruct (Hins _ _ _ _ Hs) as [[-> ->]|Hold]; try (by left); try done;
      right; first [right; by eexists|left; eexists; split; [exact Hqi|done]].
  Qed.
  Lemma needs_ok s : srv_reach v f0 p0 cs s -> forall j q, v_pcs s !! j = Some q -> needs_server q -> is_Some (p_server (v_proc s)).
  Proof.
    intros Hr. revert s Hr. refine (reach_ind (fun s => forall j q, v_pcs s !! j = Some q -> needs_server q -> is_Some (p_server (v_proc s))) _ _).
    - intros j q Hj Hn. cbn [srv_init v_pcs] in Hj. rewrite list_lookup_fmap in Hj. destruct (cs !! j) as [[]|]; by simplify_eq/=.
    - intros s s' Hr Hs IH j q Hj Hn. assert (is_Some (p_server (v_proc s))) as [k Hk].
      { destruct (new_pc s s' Hs j q Hj Hn) as [H|[(q' & H & Hn')|H]]; [by eapply IH|by eapply IH|done]. }
      exists k. by eapply server_stays.
  Qed.
  Lemma no_wrapper_pc s : srv_reach v f0 p0 cs s -> (v_wrapper v = false \/ CSearch ∉ cs) -> forall j, v_pcs s !! j <> Some PWrapper.
  Proof.
    intros Hr Hc.
    assert (forall j, (v_pcs s !! j = Some PSearch -> CSearch ∈ cs) /\ v_pcs s !! j <> Some PWrapper) as H; [|intros j; apply H].
    revert s Hr. refine (reach_ind (fun s => forall j, (v_pcs s !! j = Some PSearch -> CSearch ∈ cs) /\ v_pcs s !! j <> Some PWrapper) _ _).
    - intros j. cbn [srv_init v_pcs]. rewrite list_lookup_fmap. destruct (cs !! j) as [[]|] eqn:E; split; try done.
      intros _. by eapply elem_of_list_lookup_2.
    - intros s s' Hr [i Hs] IH j. unfold sstep in Hs. destruct (v_pcs s !! i) as [qi|] eqn:Hqi; [|done].
      assert (forall f p m q', Srv f p m (<[i := q']> (v_pcs s)) = s' -> forall q, v_pcs s' !! j = Some q -> (j = i /\ q = q') \/ v_pcs s !! j = Some q) as Hins.
      { intros f p m q' <- q Hj. cbn [v_pcs] in Hj. apply insert_lookup in Hj as [[-> ->]|[_ Hj]]; [by left|by right]. }
      destruct qi; try done; repeat (case_match; try done); injection Hs as Hs;
        split; try (intros Hj; destruct (Hins _ _ _ _ Hs _ Hj) as [[-> ?]|Hold]; [by simplify_eq|by apply (IH j)]).
      intros Hj; destruct (Hins _ _ _ _ Hs _ Hj) as [[-> _]|Hold]; [|by apply (IH j)].
      destruct Hc as [Hc|Hc]; [congruence|]. apply Hc. by apply (IH i).
  Qed.
  Lemma wrapper_ok s : srv_reach v f0 p0 cs s -> p_wrapper p0 <> None -> p_wrapper (v_proc s) <> None.
  Proof.
    intros Hr H0. revert s Hr. refine (reach_ind (fun s => p_wrapper (v_proc s) <> None) _ _); [done|].
    intros s s' _ Hs IH. by eapply wrapper_stays.
  Qed.
  Lemma no_null s : srv_reach v f0 p0 cs s -> (v_wrapper v = false \/ CSearch ∉ cs \/ p_wrapper p0 <> None) -> ~ null_use v s.
  Proof.
    intros Hr Hc [i Hu]. unfold sstep in Hu. destruct (v_pcs s !! i) as [q|] eqn:Hq; [|done].
    destruct q; try done; repeat (case_match; try done).
    - destruct Hc as [Hc|[Hc|Hc]].
      + apply (no_wrapper_pc s Hr ltac:(by left) i Hq).
      + apply (no_wrapper_pc s Hr ltac:(by right) i Hq).
      + by apply (wrapper_ok s Hr Hc).
    - destruct (needs_ok s Hr i _ Hq I) as [? ?]. congruence.
    - destruct (needs_ok s Hr i _ Hq I) as [? ?]. congruence.
    - destruct (needs_ok s Hr i _ Hq I) as [? ?]. congruence.
  Qed.

  (** *** Races *)
  Lemma race_run s : data_race s -> exists i l st, v_pcs s !! i = Some (PRun l st).
  Proof.
    intros (i & j & x & w & w' & _ & Hi & Hj & Hw).
    assert (forall i x, access s i = Some (x, true) -> exists l st, v_pcs s !! i = Some (PRun l st)) as Ha.
    { clear. intros i x H. unfold access in H. repeat (case_match; try done); by eauto. }
    destruct w; [exists i; by eapply Ha|]. destruct w'; [|done]. exists j. by eapply Ha.
  Qed.
  Lemma one_runner s i j l st l' st' : srv_reach v f0 p0 cs s -> v_pcs s !! i = Some (PRun l st) -> v_pcs s !! j = Some (PRun l' st') -> i = j.
  Proof.
    intros Hr Hi Hj. destruct (phase_reach s Hr) as [_ _ _ Hpl|w e key l0 l0' qw _ _ _ _ _ _ _ _ _ Hpl].
    - destruct (Hpl _ _ Hi) as (c & _ & H). done.
    - destruct (decide (i = w)) as [->|Hn]; [|destruct (Hpl _ _ Hn Hi) as (c & _ & H); done].
      destruct (decide (j = w)) as [->|Hn]; [done|destruct (Hpl _ _ Hn Hj) as (c & _ & H); done].
  Qed.

  (** *** Progress *)
  Definition holds_lock (q : pc) : bool := match q with PInsert | PStore => true | _ => false end.
  Lemma lock_owner s : srv_reach v f0 p0 cs s -> v_held s = true -> exists i q, v_pcs s !! i = Some q /\ holds_lock q = true.
  Proof.
    intros Hr.
    assert ((v_held s = true -> exists i q, v_pcs s !! i = Some q /\ holds_lock q = true) /\
      (forall i j q q', v_pcs s !! i = Some q -> v_pcs s !! j = Some q' -> holds_lock q = true -> holds_lock q' = true -> v_held s = true /\ i = j)) as [H _]; [|exact H].
    revert s Hr.
    refine (reach_ind (fun s => (v_held s = true -> exists i q, v_pcs s !! i = Some q /\ holds_lock q = true) /\
      (forall i j q q', v_pcs s !! i = Some q -> v_pcs s !! j = Some q' -> holds_lock q = true -> holds_lock q' = true -> v_held s = true /\ i = j)) _ _).
    - split; [done|]. intros i j q q' Hi. cbn [srv_init v_pcs] in Hi. rewrite list_lookup_fmap in Hi. destruct (cs !! i) as [[]|]; by simplify_eq/=.
    - intros s s' Hr [i Hs] [IH1 IH2]. unfold sstep in Hs. destruct (v_pcs s !! i) as [qi|] eqn:Hqi; [|done].
      assert (i < length (v_pcs s)) as Hi by (by eapply lookup_lt_Some).
      (* a step that neither takes nor releases the mutex *)
      assert (forall f p q', holds_lock q' = holds_lock qi -> Srv f p (v_held s) (<[i := q']> (v_pcs s)) = s' ->
        (v_held s' = true -> exists i q, v_pcs s' !! i = Some q /\ holds_lock q = true) /\
        (forall i j q q', v_pcs s' !! i = Some q -> v_pcs s' !! j = Some q' -> holds_lock q = true -> holds_lock q' = true -> v_held s' = true /\ i = j)) as Hsame.
      { intros f p q' Hl <-. cbn [v_held v_pcs]. split.
        - intros Hh. destruct (IH1 Hh) as (j & q & Hj & Hq). destruct (decide (j = i)) as [->|Hn].
          + exists i, q'. split; [by apply list_lookup_insert|]. rewrite Hl. congruence.
          + exists j, q. by rewrite list_lookup_insert_ne.
        - intros j1 j2 q1 q2 H1 H2 L1 L2. apply insert_lookup in H1 as [[-> ->]|[_ H1]]; apply insert_lookup in H2 as [[-> ->]|[_ H2]].
          + split; [|done]. rewrite Hl in L1. by apply (IH2 i i qi qi).
          + rewrite Hl in L1. by apply (IH2 i j2 qi q2).
          + rewrite Hl in L2. by apply (IH2 j1 i q1 qi).
          + by apply (IH2 j1 j2 q1 q2). }
      (* a step of the owner that releases it *)
      assert (forall f p q', holds_lock qi = true -> holds_lock q' = false -> Srv f p false (<[i := q']> (v_pcs s)) = s' ->
        (v_held s' = true -> exists i q, v_pcs s' !! i = Some q /\ holds_lock q = true) /\
        (forall i j q q', v_pcs s' !! i = Some q -> v_pcs s' !! j = Some q' -> holds_lock q = true -> holds_lock q' = true -> v_held s' = true /\ i = j)) as Hfree.
      { intros f p q' Hl Hl' <-. cbn [v_held v_pcs]. split; [done|].
        intros j1 j2 q1 q2 H1 H2 L1 L2. apply insert_lookup in H1 as [[-> ->]|[Hn H1]]; [congruence|].
        destruct (IH2 j1 i q1 qi H1 Hqi L1 Hl) as [_ ->]. done. }
      destruct qi; try done; repeat (case_match; try done); injection Hs as Hs;
        try (eapply Hsame; [|exact Hs]; done); try (eapply Hfree; [| |exact Hs]; done).
      (* the mutex is taken *)
      rewrite <- Hs. cbn [v_held v_pcs]. split.
      + intros _. exists i, PInsert. split; [by apply list_lookup_insert|done].
      + intros j1 j2 q1 q2 H1 H2 L1 L2. split; [done|].
        apply insert_lookup in H1 as [[-> ->]|[Hn1 H1]]; apply insert_lookup in H2 as [[-> ->]|[Hn2 H2]]; [done| | |];
        [destruct (IH2 j2 j2 q2 q2 H2 H2 L2 L2)|destruct (IH2 j1 j1 q1 q1 H1 H1 L1 L1)|destruct (IH2 j1 j1 q1 q1 H1 H1 L1 L1)]; congruence.
  Qed.
  Lemma progress s : srv_reach v f0 p0 cs s -> all_returned s \/ exists i, is_Some (sstep v s i).
  Proof.
    intros Hr. destruct (v_held s) eqn:Hh.
    - right. destruct (lock_owner s Hr Hh) as (i & q & Hq & Hl). exists i. unfold sstep. rewrite Hq. destruct q; try done; case_match; by eexists.
    - destruct (decide (Exists (fun q => match q with PSetupEnd _ | PEnd _ => false | _ => true end = true) (v_pcs s))) as [He|He].
      + right. apply Exists_exists in He as (q & Hin & Hq). apply elem_of_list_lookup in Hin as [i Hi]. exists i.
        unfold sstep. rewrite Hi, Hh. destruct q; try done; repeat case_match; by eexists.
      + left. intros i q Hi. apply not_Exists_Forall in He; [|apply _]. rewrite Forall_lookup in He. specialize (He i q Hi). cbn in He.
        destruct q; try (exfalso; by apply He); by eauto.
  Qed.
End service.

(** C80: whatever the threads do, the server is at every moment as if only one of the setups had
    run, alone, up to some point; at most one setup succeeds, and then the server is as that
    setup would have left it. *)
Theorem C80_one_setup :
  forall v setup f p cs s, is_service v setup -> srv_reach v f p cs s ->
    ((v_fs s, v_proc s) = (f, p) \/ exists e key k, CSetup e key ∈ cs /\ (v_fs s, v_proc s) = alone setup f p e key k) /\
    (forall i, v_pcs s !! i = Some (PSetupEnd SOk) ->
       (forall j, v_pcs s !! j = Some (PSetupEnd SOk) -> j = i) /\
       exists e key, cs !! i = Some (CSetup e key) /\ (setup f p e key).2 = SOk /\
         (v_fs s, v_proc s) = alone setup f p e key (length (setup f p e key).1)).
Proof.
  intros v setup f p cs s Hs Hr. apply services_good in Hs. split; [by eapply state_alone|].
  intros i Hi. by eapply success.
Qed.
Print Assumptions C80_one_setup.

(** C80: the server object, once created, is never replaced nor destroyed, and no request uses a
    null pointer to it.  (With the exception of the searches of Diana, for the pointer
    token_wrapper_, see below.) *)
Theorem C80_server_kept :
  forall v setup f p cs s, is_service v setup -> srv_reach v f p cs s ->
    (forall k s', p_server (v_proc s) = Some k -> one_step v s s' -> p_server (v_proc s') = Some k) /\
    (v_wrapper v = false \/ CSearch ∉ cs \/ p_wrapper p <> None -> ~ null_use v s).
Proof.
  intros v setup f p cs s Hs Hr. apply services_good in Hs. split.
  - intros k s' Hk Hst. by eapply server_stays.
  - intros Hc. by eapply no_null.
Qed.
Print Assumptions C80_server_kept.

(** C80: in a Sophos server no request uses a null pointer, whatever the requests that
    run alongside. *)
Theorem C80_sophos_search :
  forall valid f p cs s, srv_reach (sophos_service valid) f p cs s -> ~ null_use (sophos_service valid) s.
Proof. intros valid f p cs s Hr. eapply C80_server_kept; [constructor|exact Hr|by left]. Qed.
Print Assumptions C80_sophos_search.

(** C80: no call blocks for ever. *)
Theorem C80_progress :
  forall v setup f p cs s, is_service v setup -> srv_reach v f p cs s -> all_returned s \/ exists i, is_Some (sstep v s i).
Proof. intros v setup f p cs s _ Hr. by eapply progress. Qed.
Print Assumptions C80_progress.

Definition steps_left (v : service) (q : pc) : nat :=
  match q with
  | PCheck e key => 5 + length (v_rest v e key).1 | PExists e key => 4 + length (v_rest v e key).1
  | PMkdir e key => 3 + length (v_rest v e key).1 | PRun l _ => 1 + length l
  | PSearch => 3 | PWrapper => 2 | PServer => 1 | PLock => 3 | PInsert => 2 | PStore => 1
  | PBulk n => 3 + n | PBulkStore n => 1 + n | PSetupEnd _ | PEnd _ => 0
  end.
Lemma sum_insert (m : pc -> nat) (l : list pc) : forall i q q', l !! i = Some q -> m q' < m q ->
  sum_list (m <$> <[i := q']> l) < sum_list (m <$> l).
Proof.
  induction l as [|x l IH]; intros [|i] q q' Hi Hm; try done; csimpl in *; unfold id in *.
  - injection Hi as ->. lia.
  - specialize (IH i q q' Hi Hm). lia.
Qed.
(** C80: every execution ends: there is no infinite sequence of steps. *)
Theorem C80_ends : forall v s, Acc (flip (one_step v)) s.
Proof.
  intros v.
  assert (forall n s, sum_list (steps_left v <$> v_pcs s) < n -> Acc (flip (one_step v)) s) as H; [|intros s; apply (H (Datatypes.S (sum_list (steps_left v <$> v_pcs s)))); lia].
  induction n as [|n IH]; intros s Hn; [lia|]. constructor. intros s' [i Hs]. apply IH.
  enough (sum_list (steps_left v <$> v_pcs s') < sum_list (steps_left v <$> v_pcs s)) by lia.
  clear IH Hn n. unfold sstep in Hs. destruct (v_pcs s !! i) as [q|] eqn:Hq; [|done].
  assert (forall f p m q', steps_left v q' < steps_left v q -> Some (Ok (Srv f p m (<[i := q']> (v_pcs s)))) = Some (Ok s') ->
    sum_list (steps_left v <$> v_pcs s') < sum_list (steps_left v <$> v_pcs s)) as Hd.
  { intros f p m q' Hm [= <-]. by eapply sum_insert. }
  destruct q as [e key|e key|e key|[|a l] st|st| | | | | | |n|[|n]|st]; try done; repeat (case_match; try done);
    (eapply Hd; [|exact Hs]; cbn [steps_left length]; lia).
Qed.
Print Assumptions C80_ends.

(** C80: a data race involves the only setup that has made the directory; there is none before
    and after. *)
Theorem C80_race :
  forall v setup f p cs s, is_service v setup -> srv_reach v f p cs s -> data_race s ->
    exists i l st, v_pcs s !! i = Some (PRun l st) /\ forall j l' st', v_pcs s !! j = Some (PRun l' st') -> j = i.
Proof.
  intros v setup f p cs s Hs Hr Hd. apply services_good in Hs. destruct (race_run s Hd) as (i & l & st & Hi). exists i, l, st. split; [done|].
  intros j l' st' Hj. by eapply one_runner.
Qed.
Print Assumptions C80_race.

(** Running the threads in a given order. *)
Fixpoint schedule (v : service) (s : srv) (l : list nat) : option srv :=
  match l with [] => Some s | i :: l' => match sstep v s i with Some (Ok s') => schedule v s' l' | _ => None end end.
Lemma schedule_reach v l : forall s s', schedule v s l = Some s' -> rtc (one_step v) s s'.
Proof.
  induction l as [|i l IH]; intros s s' H; cbn [schedule] in H; [by injection H as ->|].
  destruct (sstep v s i) as [[s1| | |]|] eqn:E; try done. eapply rtc_l; [by exists i|by apply IH].
Qed.

(** C80: a search that comes during the first setup of a Diana server uses the null pointer
    token_wrapper_. *)
Theorem C80_diana_search_refuted :
  exists f p cs s, srv_reach diana_service f p cs s /\ null_use diana_service s.
Proof.
  exists FNone, fresh, [CSetup (good_env 32) (replicate 32 1%N); CSearch].
  destruct (schedule diana_service (srv_init FNone fresh [CSetup (good_env 32) (replicate 32 1%N); CSearch]) [0; 0; 0; 0; 0; 1]%nat) as [s|] eqn:E;
    [|vm_compute in E; done].
  exists s. split; [by eapply schedule_reach|]. exists 1. vm_compute in E. injection E as <-. by vm_compute.
Qed.
Print Assumptions C80_diana_search_refuted.

(** C80: requests read server_ while a setup writes it, without synchronisation. *)
Theorem C80_race_refuted :
  forall v setup, is_service v setup -> (exists e key, (v_rest v e key).2 = SOk) ->
    exists f p cs s, srv_reach v f p cs s /\ data_race s.
Proof.
  intros v setup Hs (e0 & key & He).
  assert (exists l, v_rest v (Env true true true true 0) key = (l, SOk) /\ exists k l', l = AEff EPairs :: AEff (EServer k) :: l') as (l & El & k & l' & ->).
  { destruct Hs as [|valid]; unfold diana_service, sophos_service, d_rest, so_rest in *; cbn [v_rest] in *.
    - destruct (e_core e0), (e_open e0); cbn [negb] in *; try done. case_bool_decide; [|done]. cbn [negb e_core e_open e_pairs].
      eexists. split; [reflexivity|]. by eexists _, _.
    - destruct (e_core e0), (e_open e0), (valid key); cbn [negb] in *; try done. cbn [negb e_core e_open e_pairs].
      eexists. split; [reflexivity|]. by eexists _, _. }
  set (cs := [CSetup (Env true true true true 0) key; CInsert]).
  destruct (schedule v (srv_init FNone fresh cs) [0; 0; 0; 0; 1]%nat) as [s|] eqn:E.
  - exists FNone, fresh, cs, s. split; [by eapply schedule_reach|]. cbn in E. rewrite El in E. cbn in E. injection E as <-.
    exists 0, 1, QServer, true, false. split; [done|]. done.
  - cbn in E. rewrite El in E. done.
Qed.
Print Assumptions C80_race_refuted.

(** Two setups, an insertion and a bulk insertion: the second setup makes the directory, the
    first one fails after its check, and the insertions succeed. *)
Example C80_ex :
  exists s, srv_reach diana_service FNone fresh
      [CSetup (good_env 32) (replicate 32 1%N); CSetup (good_env 32) (replicate 32 2%N); CInsert; CBulk 2] s /\ all_returned s /\
    v_pcs s = [PSetupEnd SPermissionDenied; PSetupEnd SOk; PEnd SOk; PEnd SOk] /\
    p_wrapper (v_proc s) = Some (replicate 32 2%N).
Proof.
  destruct (schedule diana_service (srv_init FNone fresh
      [CSetup (good_env 32) (replicate 32 1%N); CSetup (good_env 32) (replicate 32 2%N); CInsert; CBulk 2])
      ([0; 1; 0; 1; 1; 0] ++ replicate 37 1 ++ [2; 3; 2; 3; 2; 3; 3])%nat) as [s|] eqn:E; [|vm_compute in E; done].
  exists s. split; [by eapply schedule_reach|]. vm_compute in E. injection E as <-. split; [|by vm_compute].
  intros i q Hi. destruct i as [|[|[|[|i]]]]; cbn in Hi; try done; injection Hi as <-; by eauto.
Qed.
