(** Lemmas about the random database generator. *)
From stdpp Require Import prelude strings.
From Coq Require Import ZArith NArith Lia.
From Verif Require Import Base DbGenModel.
Local Open Scope N_scope.
Local Arguments N.of_nat : simpl never.
Local Arguments N.to_nat : simpl never.
Local Arguments N.modulo : simpl never.
Local Arguments N.div : simpl never.
Local Arguments N.pow : simpl never.
Local Arguments N.add : simpl never.
Local Arguments N.sub : simpl never.
Local Arguments N.mul : simpl never.
Local Arguments N.min : simpl never.

(** Number of callbacks for keywords with a property. *)
Definition cnt (P : kwd -> bool) (log : list (kwd * N)) : N :=
  N.of_nat (length (filter (fun x => P x.1 = true) log)).
Lemma cnt_app P l1 l2 : cnt P (l1 ++ l2) = cnt P l1 + cnt P l2.
Proof. unfold cnt. rewrite filter_app, app_length. lia. Qed.
Lemma cnt_nil P : cnt P [] = 0.
Proof. done. Qed.
Definition cntk (P : kwd -> bool) (ks : list kwd) : N := N.of_nat (length (filter (fun k => P k = true) ks)).
Lemma cntk_app P l1 l2 : cntk P (l1 ++ l2) = cntk P l1 + cntk P l2.
Proof. unfold cntk. rewrite filter_app, app_length. lia. Qed.
Lemma cntk_cons P k l : cntk P (k :: l) = (if P k then 1 else 0) + cntk P l.
Proof.
  unfold cntk. destruct (P k) eqn:E.
  - rewrite filter_cons_True by done. simpl. lia.
  - rewrite filter_cons_False by congruence. lia.
Qed.
Lemma cnt_pair P ks (ind : N) : cnt P ((fun k => (k, ind)) <$> ks) = cntk P ks.
Proof.
  induction ks as [|k ks IH]; [done|]. rewrite cntk_cons, <- IH. unfold cnt. csimpl.
  destruct (P k) eqn:E.
  - rewrite filter_cons_True by done. simpl. lia.
  - rewrite filter_cons_False by (simpl; congruence). lia.
Qed.

Notation M := max_10_counter.
Lemma gsize_pos l : 0 < gsize l.
Proof. by destruct l. Qed.
Global Opaque gsize.
Lemma M_pos : 1 < M.
Proof. done. Qed.
Global Opaque max_10_counter.

Lemma div_char k s c : 0 < s -> (k / s = c <-> c * s <= k /\ k < c * s + s).
Proof.
  intros Hs. split.
  - intros <-. pose proof (N.div_mod' k s). pose proof (N.mod_lt k s ltac:(lia)). generalize dependent (k / s). generalize dependent (k mod s). intros r Hr q Hq. rewrite (N.mul_comm s q) in Hq. generalize dependent (q * s). intros. lia.
  - intros [H1 H2]. symmetry. apply (N.div_unique k s c (k - c * s)); lia.
Qed.

(** The state of a fixed group before iteration [k]. *)
Definition G (l : glabel) (k : N) : grp :=
  Grp (N.min (k / gsize l) M) (if k =? 0 then None else Some (N.min ((k - 1) / gsize l) (M - 1))).

Lemma G0 l : G l 0 = Grp 0 None.
Proof. unfold G. pose proof (gsize_pos l). rewrite N.div_0_l by lia. f_equal. Qed.

Lemma div_succ k s : 0 < s -> (k + 1) / s = if (k + 1) mod s =? 0 then k / s + 1 else k / s.
Proof.
  intros Hs. pose proof (N.div_mod' k s) as H1. pose proof (N.mod_lt k s ltac:(lia)) as H2.
  pose proof (N.div_mod' (k + 1) s) as H3. pose proof (N.mod_lt (k + 1) s ltac:(lia)) as H4.
  remember (k / s) as q eqn:Eq. clear Eq. remember (k mod s) as r eqn:Er. clear Er.
  remember ((k + 1) / s) as q' eqn:Eq'. clear Eq'. remember ((k + 1) mod s) as r' eqn:Er'. clear Er'.
  subst k. destruct (N.eqb_spec r' 0) as [E|E].
  - assert (q < q') by nia. assert (q' <= q + 1) by nia. lia.
  - assert (q <= q') by nia. assert (q' < q + 1); [|lia].
    apply N.nle_gt. intros Hc. assert (s * (q + 1) <= s * q') by nia. lia.
Qed.

Lemma grp_step_ok l k : k + 1 < 2 ^ 64 -> grp_step l k (G l k) = G l (k + 1).
Proof.
  intros Hk. unfold grp_step, G. simpl. pose proof (gsize_pos l) as Hs. pose proof M_pos as HM.
  rewrite N.add_sub. rewrite (N.mod_small (k + 1)) by done.
  replace (k + 1 =? 0) with false by (symmetry; apply N.eqb_neq; lia).
  rewrite div_succ by done. set (s := gsize l) in *.
  destruct (N.ltb_spec (N.min (k / s) M) M) as [H|H].
  - assert (k / s < M) by lia. rewrite !(N.min_l (k / s)) by lia.
    destruct (_ =? 0); f_equal; lia.
  - assert (M <= k / s) by lia. rewrite !(N.min_r (k / s)) by lia.
    assert (E : M * s <= k).
    { pose proof (N.mul_div_le k s ltac:(lia)). nia. }
    destruct (N.eqb_spec k 0) as [->|Hk0]; [nia|]. f_equal.
    + destruct (_ =? 0); lia.
    + f_equal. rewrite N.min_r; [done|]. apply N.div_le_lower_bound; [lia|]. nia.
Qed.

Section gen.
  Context (ngroups : nat -> N) (below : nat -> N -> bool).
  Context (Hz : forall lv ind, ngroups lv = 0 -> below lv ind = false).

  (** The vectors of the random groups. *)
  Fixpoint rok (lv : nat) (ls : list (N * N * glabel)) (vs : list (list N)) : Prop :=
    match ls, vs with
    | [], [] => True
    | (size, _, _) :: ls', v :: vs' =>
        length v = N.to_nat (ngroups lv) /\ Forall (fun x => x <= size) v /\ rok (S lv) ls' vs'
    | _, _ => False
    end.
  Fixpoint occ (d : N) (g : nat) (ls : list (N * N * glabel)) (vs : list (list N)) : N :=
    match ls, vs with
    | (_, digit, _) :: ls', v :: vs' => (if digit =? d then default 0 (v !! g) else 0) + occ d g ls' vs'
    | _, _ => 0
    end.
  Fixpoint capacity (d : N) (ls : list (N * N * glabel)) : N :=
    match ls with
    | [] => 0
    | (size, digit, _) :: ls' => (if digit =? d then size else 0) + capacity d ls'
    end.

  Lemma occ_le d g lv ls vs : rok lv ls vs -> occ d g ls vs <= capacity d ls.
  Proof.
    revert lv vs. induction ls as [|[[size digit] l] ls IH]; intros lv [|v vs]; simpl; try done.
    intros (_ & HF & H). apply IH in H. destruct (digit =? d); [|lia].
    destruct (v !! g) eqn:E; simpl; [|lia]. eapply Forall_lookup_1 in HF; [|done]. simpl in HF. lia.
  Qed.

  Definition is_rand (d tid : N) (g : nat) (k : kwd) : bool := bool_decide (k = KRand d tid (N.of_nat g)).

  Definition only_rand (tid : N) (k : kwd) : Prop := exists d g, k = KRand d tid g.

  Lemma rand_step_ok lv size digit tid ind v :
    length v = N.to_nat (ngroups lv) -> Forall (fun x => x <= size) v ->
    exists v' ks, rand_step ngroups below lv size digit tid ind v = Ok (v', ks) /\
      length v' = length v /\ Forall (fun x => x <= size) v' /\ Forall (only_rand tid) ks /\
      (length ks <= 1)%nat /\
      forall d g, (if digit =? d then default 0 (v' !! g) else 0) =
                  (if digit =? d then default 0 (v !! g) else 0) + cntk (is_rand d tid g) ks.
  Proof.
    intros HL HF. unfold rand_step.
    assert (Hnone : exists v' ks, Ok (v, @nil kwd) = Ok (v', ks) /\
      length v' = length v /\ Forall (fun x => x <= size) v' /\ Forall (only_rand tid) ks /\
      (length ks <= 1)%nat /\
      forall d g, (if digit =? d then default 0 (v' !! g) else 0) =
                  (if digit =? d then default 0 (v !! g) else 0) + cntk (is_rand d tid g) ks).
    { exists v, []. split_and!; auto. intros d g. unfold cntk. simpl. lia. }
    destruct (below lv ind) eqn:Eb; [|exact Hnone].
    destruct (N.eqb_spec (ngroups lv) 0) as [E|E]; [by rewrite Hz in Eb|].
    set (g0 := (ind mod ngroups lv) mod 2 ^ 16).
    assert (Hg : g0 < ngroups lv).
    { unfold g0. eapply N.le_lt_trans; [apply N.mod_le; done|]. by apply N.mod_lt. }
    destruct (lookup_lt_is_Some_2 v (N.to_nat g0)) as [x Hx]; [lia|].
    unfold vat. rewrite Hx. cbn [rbind].
    destruct (N.ltb_spec x size) as [Hlt|Hlt]; [|exact Hnone].
    do 2 eexists. split; [done|]. rewrite insert_length. split; [done|].
    split; [apply Forall_insert; [done|lia]|]. split; [repeat constructor; unfold only_rand; eauto|].
    split; [done|]. intros d g. rewrite cntk_cons. unfold is_rand at 1.
    assert (Ec : cntk (is_rand d tid g) [] = 0) by done. rewrite Ec.
    destruct (decide (g = N.to_nat g0)) as [->|Hne].
    - rewrite list_lookup_insert by (by eapply lookup_lt_Some). rewrite Hx. simpl. rewrite N2Nat.id.
      destruct (N.eqb_spec digit d) as [->|Hd].
      + rewrite bool_decide_true by done. lia.
      + rewrite bool_decide_false by congruence. lia.
    - rewrite list_lookup_insert_ne by done.
      rewrite bool_decide_false by (intros [= ? ?]; lia). lia.
  Qed.

  Lemma rand_steps_ok lv ls ok tid ind vs : rok lv ls vs ->
    exists vs' ks, rand_steps ngroups below lv ls ok tid ind vs = Ok (vs', ks) /\ rok lv ls vs' /\
      Forall (only_rand tid) ks /\ forall d g, occ d g ls vs' = occ d g ls vs + cntk (is_rand d tid g) ks.
  Proof.
    revert lv vs. induction ls as [|[[size digit] l] ls IH]; intros lv [|v vs]; simpl; try done.
    { intros _. exists [], []. split_and!; auto. }
    intros (HL & HF & H). destruct (IH _ _ H) as (vs' & ks & E & R & F & HO).
    assert (Hst : exists v' ks, (if ok l then rand_step ngroups below lv size digit tid ind v else Ok (v, [])) = Ok (v', ks) /\
      length v' = length v /\ Forall (fun x => x <= size) v' /\ Forall (only_rand tid) ks /\
      forall d g, (if digit =? d then default 0 (v' !! g) else 0) =
                  (if digit =? d then default 0 (v !! g) else 0) + cntk (is_rand d tid g) ks).
    { destruct (ok l).
      - destruct (rand_step_ok lv size digit tid ind v HL HF) as (v' & ks' & ? & ? & ? & ? & ? & ?). eauto 10.
      - exists v, []. split_and!; auto. intros d g. unfold cntk. simpl. lia. }
    destruct Hst as (v' & ks' & E' & HL' & HF' & F' & HO'). rewrite E', E. cbn [rbind fst snd].
    do 2 eexists. split; [done|]. split; [split_and!; auto; congruence|].
    split; [by apply Forall_app|]. intros d g. rewrite cntk_app, HO', HO. lia.
  Qed.

  (** * The loop *)
  Lemma tab_eq f l : tab f l = f l.
  Proof. by destruct l. Qed.
  Lemma group_kws_ext gs gs' tid : (forall l, gs l = gs' l) -> group_kws gs tid = group_kws gs' tid.
  Proof. intros H. unfold group_kws. apply list_fmap_ext. intros i l _. by rewrite H. Qed.
  Definition in_group (l : glabel) (k : kwd) : bool := match k with KGroup l' _ _ => bool_decide (l' = l) | _ => false end.
  Definition in_pct (b : pbase) (side : N) (k : kwd) : bool :=
    match k with KPct b' _ s => bool_decide (b' = b /\ s = side) | _ => false end.
  Definition is_kw (k k' : kwd) : bool := bool_decide (k' = k).
  Definition of_tid (tid : N) (k : kwd) : Prop :=
    match k with KPct _ _ _ => True | KGroup _ t _ => t = tid | KRand _ t _ => t = tid | KEmpty => False end.

  (** How many of the iterations [k], ..., [k + m - 1] use the keyword with counter [c]. *)
  Definition gcount (l : glabel) (c : N) (k m : nat) : N :=
    N.of_nat (length (filter (fun j => N.min (N.of_nat j / gsize l) (M - 1) = c) (seq k m))).

  Record log_ok (tid : N) (vs : list (list N)) (k m : nat) (log : list (kwd * N)) : Prop := LogOk {
    lo_tid : Forall (fun x => of_tid tid x.1) log;
    lo_group : forall l, cnt (in_group l) log = N.of_nat m;
    lo_pct : forall b side, side = 1 \/ side = 2 -> cnt (in_pct b side) log = N.of_nat m;
    lo_kw : forall l c, cnt (is_kw (KGroup l tid c)) log = gcount l c k m;
    lo_rand : forall d g, cnt (is_kw (KRand d tid (N.of_nat g))) log + occ d g levels vs <= capacity d levels
  }.

  Lemma rand_cntk0 tid ks (P : kwd -> bool) : Forall (only_rand tid) ks ->
    (forall d g, P (KRand d tid g) = false) -> cntk P ks = 0.
  Proof.
    intros HF HP. induction HF as [|k ks (d & g & ->) HF IH]; [done|]. rewrite cntk_cons, HP, IH. done.
  Qed.

  Lemma gcount_S l c k m :
    gcount l c k (S m) = (if bool_decide (N.min (N.of_nat k / gsize l) (M - 1) = c) then 1 else 0) + gcount l c (S k) m.
  Proof.
    unfold gcount. simpl. case_bool_decide.
    - rewrite filter_cons_True by done. simpl. lia.
    - rewrite filter_cons_False by done. lia.
  Qed.

  Lemma kgroup_ind l' l tid x c :
    (if bool_decide (KGroup l' tid x = KGroup l tid c) then 1 else 0) =
    (if bool_decide (l' = l) then if bool_decide (x = c) then 1 else 0 else 0).
  Proof. repeat case_bool_decide; simplify_eq; done. Qed.

  Lemma iteration_ok tid ind k vs counter gs : rok 0 levels vs -> k + 1 < 2 ^ 64 -> (forall l, gs l = G l k) ->
    exists gs' vs' log E, iteration ngroups below tid ind (TS counter k gs vs) = Ok (TS counter k gs' vs', log, E) /\
      (forall l, gs' l = G l (k + 1)) /\ rok 0 levels vs' /\
      E = N.of_nat (length log) /\ Forall (fun x => of_tid tid x.1) log /\
      (forall l, cnt (in_group l) log = 1) /\
      (forall b side, side = 1 \/ side = 2 -> cnt (in_pct b side) log = 1) /\
      (forall l c, cnt (is_kw (KGroup l tid c)) log = if bool_decide (N.min (k / gsize l) (M - 1) = c) then 1 else 0) /\
      (forall d g, cnt (is_kw (KRand d tid (N.of_nat g))) log + occ d g levels vs = occ d g levels vs').
  Proof.
    intros HR Hk HG. unfold iteration. cbn [t_groups t_i t_rand t_counter].
    destruct (rand_steps_ok 0 levels (fun l => g_counter (gs l) <? M) tid ind vs HR) as (vs' & ks & E & R & F & HO).
    rewrite E. cbn [rbind fst snd].
    assert (HG' : forall l, grp_step l k (gs l) = G l (k + 1)) by (intros l; rewrite HG; by apply grp_step_ok).
    assert (Hkw : group_kws (tab (fun l => grp_step l k (gs l))) tid = (fun l => KGroup l tid (N.min (k / gsize l) (M - 1))) <$> gorder).
    { unfold group_kws. apply list_fmap_ext. intros i l _. rewrite tab_eq, HG'. unfold G. simpl.
      replace (k + 1 =? 0) with false by (symmetry; apply N.eqb_neq; lia). by rewrite N.add_sub. }
    do 4 eexists. split; [done|]. split; [intros l; rewrite tab_eq; apply HG'|]. split; [exact R|]. rewrite Hkw.
    split; [rewrite fmap_length, !app_length; simpl; lia|].
    split.
    { apply Forall_fmap. rewrite !Forall_app. split_and!.
      - by repeat constructor.
      - by repeat constructor.
      - apply Forall_fmap. by repeat constructor.
      - eapply Forall_impl; [exact F|]. intros ? (d & g & ->). done. }
    split; [|split; [|split]].
    - intros l. rewrite cnt_pair, !cntk_app. rewrite (rand_cntk0 tid ks) by done.
      unfold percent, gorder. csimpl. rewrite !cntk_cons. simpl.
      destruct l; simpl; done.
    - intros b side Hs. rewrite cnt_pair, !cntk_app. rewrite (rand_cntk0 tid ks) by done.
      unfold percent, gorder. csimpl. rewrite !cntk_cons. simpl.
      destruct b; destruct Hs as [->| ->]; simpl; done.
    - intros l c. rewrite cnt_pair, !cntk_app. rewrite (rand_cntk0 tid ks) by done.
      unfold percent, gorder. csimpl. rewrite !cntk_cons. unfold is_kw.
      assert (E0 : forall P, cntk P [] = 0) by done. rewrite !E0.
      repeat (rewrite (bool_decide_false (KPct _ _ _ = _)) by done).
      rewrite !kgroup_ind. destruct l; simpl; case_bool_decide; done.
    - intros d g. rewrite cnt_pair, !cntk_app, HO.
      assert (E0 : cntk (is_kw (KRand d tid (N.of_nat g))) ks = cntk (is_rand d tid g) ks) by done. rewrite E0.
      unfold percent, gorder. csimpl. rewrite !cntk_cons. unfold is_kw.
      repeat (rewrite (bool_decide_false (KPct _ _ _ = _)) by done).
      repeat (rewrite (bool_decide_false (KGroup _ _ _ = KRand _ _ _)) by done).
      assert (E1 : forall P, cntk P [] = 0) by done. rewrite !E1. lia.
  Qed.

  Local Opaque levels.
  Lemma loop_ok n step tid stream : 0 < step -> n + step < 2 ^ 64 ->
    forall m fuel k s, (m < fuel)%nat ->
      t_i s = N.of_nat k -> t_counter s = tid + N.of_nat k * step ->
      (forall l, t_groups s l = G l (N.of_nat k)) -> rok 0 levels (t_rand s) ->
      n <= tid + N.of_nat (k + m) * step -> (m <> 0%nat -> tid + N.of_nat (k + m - 1) * step < n) ->
      exists log, job_loop ngroups below fuel n step tid stream s = Ok (log, N.of_nat m, N.of_nat (length log)) /\
        log_ok tid (t_rand s) k m log.
  Proof.
    intros Hs Hn m. induction m as [|m IH]; intros [|fuel] k s Hf Ei Ec HG HR Hle Hlt; try lia; simpl.
    - rewrite Ec. destruct (N.ltb_spec (tid + N.of_nat k * step) n) as [H|H]; [lia|].
      exists []. split; [done|]. split; try done. intros d g. rewrite cnt_nil.
      pose proof (occ_le d g 0 levels (t_rand s) HR). lia.
    - rewrite Ec. specialize (Hlt ltac:(lia)).
      assert (Hk : tid + N.of_nat k * step < n) by nia.
      destruct (N.ltb_spec (tid + N.of_nat k * step) n) as [_|H]; [|lia].
      destruct s as [c0 i0 gs vs]. simpl in *. subst c0 i0.
      assert (Hk1 : N.of_nat k + 1 < 2 ^ 64) by nia.
      destruct (iteration_ok tid (stream (N.of_nat k)) (N.of_nat k) vs (tid + N.of_nat k * step) gs HR Hk1 HG)
        as (gs' & vs' & log1 & E1 & Eq & HG' & HR' & -> & H1 & H2 & H3 & H4 & H5).
      rewrite Eq. cbn [rbind fst snd t_groups t_rand].
      destruct (IH fuel (S k) (TS ((tid + N.of_nat k * step + step) mod 2 ^ 64) ((N.of_nat k + 1) mod 2 ^ 64) gs' vs'))
        as (log2 & Eq2 & [L1 L2 L3 L4 L5]); simpl.
      + lia.
      + rewrite N.mod_small by done. lia.
      + rewrite N.mod_small by lia. lia.
      + intros l. rewrite HG'. f_equal. lia.
      + done.
      + by replace (S (k + m))%nat with (k + S m)%nat by lia.
      + intros Hm. eapply N.le_lt_trans; [|exact Hlt]. apply N.add_le_mono_l, N.mul_le_mono_r. lia.
      + rewrite Eq2. cbn [rbind fst snd]. exists (log1 ++ log2). split; [do 3 f_equal; rewrite ?app_length; lia|].
        simpl in L5. split.
        * by apply Forall_app.
        * intros l. rewrite cnt_app, H2, L2. lia.
        * intros b side Hside. rewrite cnt_app, H3, L3 by done. lia.
        * intros l c. rewrite cnt_app, H4, L4, gcount_S. done.
        * intros d g. rewrite cnt_app. specialize (H5 d g). specialize (L5 d g). lia.
  Qed.

  Local Transparent levels.
  Lemma rok_init : rok 0 levels ((fun lv => replicate (N.to_nat (ngroups lv)) 0) <$> seq 0 5).
  Proof.
    unfold levels. simpl. rewrite !replicate_length.
    repeat split; apply Forall_replicate; lia.
  Qed.

  Local Opaque levels.
  Definition docs_of (n step tid : N) : N := n / step + (if tid <? n mod step then 1 else 0).

  Lemma job_ok n step tid stream : tid < step -> n + step < 2 ^ 64 ->
    exists log, generation_job ngroups below n step tid stream =
        Ok (log, docs_of n step tid, N.of_nat (length log)) /\
      log_ok tid ((fun lv => replicate (N.to_nat (ngroups lv)) 0) <$> seq 0 5) 0 (N.to_nat (docs_of n step tid)) log.
  Proof.
    intros Ht Hn. unfold generation_job.
    pose proof (N.div_mod' n step) as HD. pose proof (N.mod_lt n step ltac:(lia)) as HM.
    destruct (loop_ok n step tid stream ltac:(lia) Hn (N.to_nat (docs_of n step tid)) (S (N.to_nat n)) 0
      (TS tid 0 (fun _ => Grp 0 None) ((fun lv => replicate (N.to_nat (ngroups lv)) 0) <$> seq 0 5))) as (log & E & HL).
    - unfold docs_of. assert (n / step + (if tid <? n mod step then 1 else 0) <= n); [|lia].
      set (q := n / step) in *. set (r := n mod step) in *. destruct (N.ltb_spec tid r); nia.
    - done.
    - simpl. lia.
    - intros l. simpl. change (N.of_nat 0) with 0. by rewrite G0.
    - apply rok_init.
    - rewrite Nat.add_0_l, N2Nat.id. unfold docs_of. set (q := n / step) in *. set (r := n mod step) in *.
      destruct (N.ltb_spec tid r); nia.
    - intros Hne. rewrite Nat.add_0_l. replace (N.of_nat (N.to_nat (docs_of n step tid) - 1)) with (docs_of n step tid - 1) by lia.
      assert (docs_of n step tid <> 0) by lia.
      unfold docs_of in *. set (q := n / step) in *. set (r := n mod step) in *.
      destruct (N.ltb_spec tid r); [nia|]. destruct (N.eq_dec q 0); [lia|]. nia.
    - exists log. rewrite E, N2Nat.id. done.
  Qed.
End gen.
