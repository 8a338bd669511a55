(** C124: what the random database generator logs. *)
From stdpp Require Import prelude strings.
From Coq Require Import ZArith NArith Lia.
From Verif Require Import Base EncModel GenClientModel LogModel DbGenModel DbGenSpec DbGenProofs DbGenThreads Props_DbGen GenLogModel GenLogSpec.
Local Open Scope N_scope.
Local Arguments N.of_nat : simpl never.
Local Arguments N.to_nat : simpl never.
Local Arguments N.modulo : simpl never.
Local Arguments N.div : simpl never.
Local Arguments N.pow : simpl never.
Local Arguments N.add : simpl never.
Local Arguments N.sub : simpl never.
Local Arguments N.mul : simpl never.
Local Arguments N.min : simpl never.

Lemma calls_app a b : calls (a ++ b) = calls a ++ calls b.
Proof. apply omap_app. Qed.
Lemma calls_of ks ind : calls ((fun k => GCall k ind) <$> ks) = (fun k => (k, ind)) <$> ks.
Proof. unfold calls. induction ks as [|k ks IH]; [done|]. csimpl. by rewrite IH. Qed.
Lemma held_cnt k cs : held k cs = cnt (is_kw k) cs.
Proof.
  unfold held, cnt. f_equal. induction cs as [|[k' i] cs IH]; [done|]. destruct (decide (k' = k)) as [->|Hne].
  - rewrite !filter_cons_True; [simpl; by rewrite IH|by apply bool_decide_eq_true|done].
  - rewrite !filter_cons_False; [done|simpl; unfold is_kw; by rewrite bool_decide_eq_true|done].
Qed.
Lemma quiet_calls tid i gs ls : calls (mjoin ((fun l => completed tid i l (gs l)) <$> ls)) = [].
Proof.
  induction ls as [|l ls IH]; [done|]. rewrite fmap_cons.
  change (mjoin (?x :: ?y)) with (x ++ mjoin y). rewrite calls_app, IH. unfold completed. by destruct (_ && _).
Qed.

Lemma pair_inj {A B} (a a' : A) (b b' : B) : (a, b) = (a', b') -> a = a' /\ b = b'.
Proof. by intros [= -> ->]. Qed.
Lemma ok_inj {A} (a b : A) : Ok a = Ok b -> a = b.
Proof. by intros [= ->]. Qed.

(** How many keywords there are and how many documents they hold. *)
Lemma gcount_exact l c m : N.of_nat m <= gsize l * M ->
  gcount l c 0 m = if c <? M then N.min (gsize l) (N.of_nat m - c * gsize l) else 0.
Proof.
  intros Hm. pose proof (gsize_pos l) as Hs. pose proof M_pos as HM. unfold gcount.
  assert (E : forall j, j ∈ seq 0 m -> N.min (N.of_nat j / gsize l) (M - 1) = N.of_nat j / gsize l).
  { intros j Hj. apply elem_of_seq in Hj. apply N.min_l.
    assert (N.of_nat j / gsize l < M); [|lia]. apply N.div_lt_upper_bound; lia. }
  destruct (N.ltb_spec c M) as [Hc|Hc].
  - assert (HP : filter (fun j => N.min (N.of_nat j / gsize l) (M - 1) = c) (seq 0 m) ≡ₚ
      seq (N.to_nat (c * gsize l)) (N.to_nat (N.min (gsize l) (N.of_nat m - c * gsize l)))).
    { apply NoDup_Permutation; [apply NoDup_filter, NoDup_seq|apply NoDup_seq|].
      intros j. rewrite elem_of_list_filter. split.
      - intros [Hj Hin]. rewrite E in Hj by done. apply elem_of_seq in Hin. apply elem_of_seq.
        apply div_char in Hj; [|done]. lia.
      - intros Hin. apply elem_of_seq in Hin. assert (Hj : j ∈ seq 0 m) by (apply elem_of_seq; lia).
        split; [|done]. rewrite E by done. apply div_char; [done|]. lia. }
    rewrite HP, seq_length. lia.
  - assert (HN : filter (fun j => N.min (N.of_nat j / gsize l) (M - 1) = c) (seq 0 m) = []); [|by rewrite HN].
    apply elem_of_nil_inv. intros j [Hj Hin]%elem_of_list_filter. rewrite E in Hj by done.
    apply elem_of_seq in Hin. assert (N.of_nat j / gsize l < M); [|lia]. apply N.div_lt_upper_bound; lia.
Qed.

Section gen.
  Context (ngroups : nat -> N) (below : nat -> N -> bool).
  Context (Hz : forall lv ind, ngroups lv = 0 -> below lv ind = false).
  Local Notation log_iteration := (log_iteration ngroups below).
  Local Notation log_loop := (log_loop ngroups below).

  (** The same calls as without the messages. *)
  Lemma log_iteration_calls tid ind seen s s' cs e : iteration ngroups below tid ind s = Ok (s', cs, e) ->
    exists es, log_iteration tid ind seen s = Ok (s', es) /\ calls es = cs /\
      es = ((fun k => GCall k ind) <$> (percent 1 ind ++ percent 2 (ind / 1000))) ++
        mjoin ((fun l => completed tid (t_i s) l (t_groups s l)) <$> uorder) ++
        (if seen.1.1 mod 1000 =? 0 then [GProgress seen.1.2 seen.2] else []) ++ drop 6 ((fun x => GCall x.1 x.2) <$> cs).
  Proof.
    unfold iteration, GenLogModel.log_iteration. intros H. apply rbind_ok in H as (x & Hx & H). rewrite Hx. cbn [rbind].
    apply ok_inj in H. apply pair_inj in H as [[<- <-]%pair_inj <-]. eexists. split; [done|]. split.
    - rewrite !calls_app, !calls_of, quiet_calls, !fmap_app. by destruct (_ =? 0); rewrite <- !app_assoc.
    - do 2 f_equal. f_equal. rewrite <- list_fmap_compose, <- fmap_drop, app_assoc. rewrite drop_app_alt by done. done.
  Qed.
  Lemma log_loop_calls n step tid stream seen : forall fuel s cs d e,
    job_loop ngroups below fuel n step tid stream s = Ok (cs, d, e) ->
    exists es s', log_loop fuel n step tid stream seen s = Ok (es, s') /\ calls es = cs.
  Proof using.
    induction fuel as [|fuel IH]; intros s cs d e H; [done|]. cbn [job_loop GenLogModel.log_loop] in *.
    destruct (t_counter s <? n); [|injection H as <- <- <-; by eexists _, _].
    apply rbind_ok in H as ([[s1 cs1] e1] & H1 & H). cbn [fst snd] in H. apply rbind_ok in H as ([[cs2 d2] e2] & H2 & H).
    injection H as <- <- <-. cbn [fst snd] in *.
    destruct (log_iteration_calls tid (stream (t_i s)) (seen (t_i s)) s s1 cs1 e1 H1) as (es1 & -> & E1 & _). cbn [rbind fst snd].
    destruct (IH _ _ _ _ H2) as (es2 & s' & -> & E2). cbn [rbind fst snd]. eexists _, _. split; [done|].
    by rewrite calls_app, E1, E2.
  Qed.

  Local Opaque levels.
  (** The messages of iterations [k] to [k + m - 1], and the last state. *)
  Record run_ok (seen : N -> N * N * N) (tid : N) (vs : list (list N)) (k m : nat) (es : list gevent) (s : tstate) : Prop := RunOk {
    ro_i : forall l, t_groups s l = G l (N.of_nat (k + m));
    ro_rok : rok ngroups 0 levels (t_rand s);
    ro_kw : forall l c, cnt (is_kw (KGroup l tid c)) (calls es) = gcount l c k m;
    ro_rand : forall d g, cnt (is_kw (KRand d tid (N.of_nat g))) (calls es) + occ d g levels vs = occ d g levels (t_rand s);
    ro_said : forall l c, said (KGroup l tid c) es =
      length (filter (fun j => N.of_nat j / gsize l = c /\ c < M /\ (N.of_nat j + 1) mod gsize l = 0) (seq k m));
    ro_progress : progress es = omap (fun j => if (seen (N.of_nat j)).1.1 mod 1000 =? 0 then Some ((seen (N.of_nat j)).1.2, (seen (N.of_nat j)).2) else None) (seq k m);
    ro_when : forall pre k0 post, es = pre ++ GCompleted k0 :: post ->
      exists l j, (k <= j < k + m)%nat /\ k0 = KGroup l tid (N.of_nat j / gsize l) /\ (N.of_nat j + 1) mod gsize l = 0 /\
        cnt (is_kw k0) (calls pre) = gcount l (N.of_nat j / gsize l) k (j - k)
  }.
  Lemma said_app k a b : said k (a ++ b) = (said k a + said k b)%nat.
  Proof using. unfold said. by rewrite filter_app, app_length. Qed.
  Lemma said_calls k ks ind : said k ((fun k => GCall k ind) <$> ks) = O.
  Proof using. unfold said. induction ks as [|x ks IH]; [done|]. csimpl. by rewrite filter_cons_False. Qed.
  Lemma said_progress k (b : bool) d e : said k (if b then [GProgress d e] else []) = O.
  Proof using. by destruct b. Qed.
  Lemma div_M l k : (N.min (k / gsize l) M <? M) = (k / gsize l <? M).
  Proof using. destruct (N.ltb_spec (k / gsize l) M), (N.ltb_spec (N.min (k / gsize l) M) M); lia. Qed.
  Lemma completed_G tid k l : k + 1 < 2 ^ 64 ->
    completed tid k l (G l k) =
      if decide (k / gsize l < M /\ (k + 1) mod gsize l = 0) then [GCompleted (KGroup l tid (k / gsize l))] else [].
  Proof using.
    intros Hk. unfold completed, G. cbn [g_counter]. rewrite (N.mod_small (k + 1)) by done. rewrite div_M.
    destruct (N.ltb_spec (k / gsize l) M), (N.eqb_spec ((k + 1) mod gsize l) 0); cbn [andb].
    - rewrite decide_True by done. rewrite N.min_l by lia. done.
    - rewrite decide_False by tauto. done.
    - rewrite decide_False by lia. done.
    - rewrite decide_False by tauto. done.
  Qed.
  Lemma said_completed tid k l c ls : NoDup ls ->
    said (KGroup l tid c) (mjoin ((fun l' => if decide (k / gsize l' < M /\ (k + 1) mod gsize l' = 0)
      then [GCompleted (KGroup l' tid (k / gsize l'))] else []) <$> ls)) =
    (if decide (l ∈ ls /\ k / gsize l = c /\ c < M /\ (k + 1) mod gsize l = 0) then 1%nat else 0%nat).
  Proof using.
    induction ls as [|l' ls IH]; intros HN; [rewrite decide_False; [done|]; intros [H _]; by apply elem_of_nil in H|].
    apply NoDup_cons in HN as [Hn HN]. rewrite fmap_cons. change (mjoin (?x :: ?y)) with (x ++ mjoin y).
    rewrite said_app, (IH HN). destruct (decide (l' = l)) as [->|Hne].
    - rewrite (decide_False (P := l ∈ ls /\ _)) by tauto.
      destruct (decide (k / gsize l < M /\ _)) as [[H1 H2]|H].
      + unfold said. destruct (decide (k / gsize l = c)) as [<-|Hc].
        * rewrite filter_cons_True by done. rewrite decide_True; [done|]. split_and!; try done. by left.
        * rewrite filter_cons_False by congruence. rewrite decide_False by tauto. done.
      + rewrite decide_False; [done|]. intros (_ & <- & H1 & H2). by apply H.
    - assert (E0 : said (KGroup l tid c) (if decide (k / gsize l' < M /\ (k + 1) mod gsize l' = 0)
        then [GCompleted (KGroup l' tid (k / gsize l'))] else []) = O).
      { destruct (decide (k / gsize l' < M /\ _)); [|done]. unfold said. rewrite filter_cons_False by congruence. done. }
      rewrite E0. destruct (decide (l ∈ ls /\ _)) as [[H1 H2]|H]; [rewrite decide_True; [done|]; split; [by right|done]|].
      rewrite decide_False; [done|]. intros [H1 H2]. apply H. split; [|done]. by apply elem_of_cons in H1 as [->|H1].
  Qed.
  Lemma in_uorder l : l ∈ uorder.
  Proof using. unfold uorder. destruct l; apply (bool_decide_unpack _); by vm_compute. Qed.
  Lemma nodup_uorder : NoDup uorder.
  Proof using. apply (bool_decide_unpack _). by vm_compute. Qed.
  (** A message in a list of messages and calls. *)
  Lemma split_msg (A B C : list gevent) pre k0 post :
    (forall k, GCompleted k ∉ A) -> (forall k, GCompleted k ∉ C) ->
    A ++ B ++ C = pre ++ GCompleted k0 :: post -> exists x y, B = x ++ GCompleted k0 :: y /\ pre = A ++ x.
  Proof using.
    intros HA HC H. apply app_eq_inv in H as [(t & E1 & E2)|(t & E1 & E2)].
    - destruct t as [|z t].
      + cbn in E2. rewrite app_nil_r in E1. subst pre. exists []. symmetry in E2. destruct B as [|b B].
        * cbn in E2. subst C. exfalso. apply (HC k0). left.
        * cbn in E2. injection E2 as -> E2. exists B. by rewrite app_nil_r.
      + cbn in E2. injection E2 as E2 _. subst z. exfalso. apply (HA k0). rewrite E1. apply elem_of_app. right. left.
    - apply app_eq_inv in E2 as [(u & E3 & E4)|(u & E3 & E4)].
      + destruct u as [|z u].
        * exfalso. cbn in E4. apply (HC k0). rewrite <- E4. left.
        * cbn in E4. injection E4 as <- E4. exists t, u. split; [by rewrite E3|done].
      + exfalso. apply (HC k0). rewrite E4. apply elem_of_app. right. left.
  Qed.
  Lemma no_msg_calls k (ks : list kwd) ind : GCompleted k ∉ ((fun k => GCall k ind) <$> ks).
  Proof using. intros H. apply elem_of_list_fmap in H as (x & H & _). discriminate H. Qed.
  Lemma calls_msgs (l : list gevent) : (forall e, e ∈ l -> exists k, e = GCompleted k) -> calls l = [].
  Proof using.
    induction l as [|e l IH]; intros H; [done|]. destruct (H e ltac:(by left)) as [k ->]. cbn. apply IH. intros e' He. apply H. by right.
  Qed.

  Lemma progress_app a b : progress (a ++ b) = progress a ++ progress b.
  Proof using. apply omap_app. Qed.
  Lemma progress_calls (ks : list (kwd * N)) : progress ((fun x => GCall x.1 x.2) <$> ks) = [].
  Proof using. unfold progress. by induction ks. Qed.
  Lemma progress_calls_of (ks : list kwd) ind : progress ((fun k => GCall k ind) <$> ks) = [].
  Proof using. unfold progress. by induction ks. Qed.
  Lemma progress_msgs tid i gs ls : progress (mjoin ((fun l => completed tid i l (gs l)) <$> ls)) = [].
  Proof using.
    induction ls as [|l ls IH]; [done|]. rewrite fmap_cons.
    change (mjoin (?x :: ?y)) with (x ++ mjoin y). rewrite progress_app, IH. unfold completed. by destruct (_ && _).
  Qed.
  Lemma log_iteration_ok tid ind seen k vs counter gs : rok ngroups 0 levels vs -> k + 1 < 2 ^ 64 -> (forall l, gs l = G l k) ->
    exists gs' vs' es, log_iteration tid ind seen (TS counter k gs vs) = Ok (TS counter k gs' vs', es) /\
      (forall l, gs' l = G l (k + 1)) /\ rok ngroups 0 levels vs' /\
      (forall l c, cnt (is_kw (KGroup l tid c)) (calls es) = if bool_decide (N.min (k / gsize l) (M - 1) = c) then 1 else 0) /\
      (forall d g, cnt (is_kw (KRand d tid (N.of_nat g))) (calls es) + occ d g levels vs = occ d g levels vs') /\
      (forall l c, said (KGroup l tid c) es = if decide (k / gsize l = c /\ c < M /\ (k + 1) mod gsize l = 0) then 1%nat else 0%nat) /\
      progress es = (if seen.1.1 mod 1000 =? 0 then [(seen.1.2, seen.2)] else []) /\
      (forall pre k0 post, es = pre ++ GCompleted k0 :: post ->
        exists l, k0 = KGroup l tid (k / gsize l) /\ (k + 1) mod gsize l = 0 /\ cnt (is_kw k0) (calls pre) = 0).
  Proof using Hz.
    intros HR Hk HG. destruct (iteration_ok ngroups below Hz tid ind k vs counter gs HR Hk HG)
      as (gs' & vs' & cs & e & Hi & HG' & HR' & _ & _ & _ & _ & H4 & H5).
    destruct (log_iteration_calls tid ind seen _ _ _ _ Hi) as (es & He & Hc & Hes). cbn [t_i t_groups] in Hes.
    exists gs', vs', es. split; [done|]. split; [done|]. split; [done|]. rewrite Hc. split; [done|]. split; [done|].
    assert (Hm : mjoin ((fun l => completed tid k l (gs l)) <$> uorder) =
      mjoin ((fun l' => if decide (k / gsize l' < M /\ (k + 1) mod gsize l' = 0)
        then [GCompleted (KGroup l' tid (k / gsize l'))] else []) <$> uorder)).
    { f_equal. apply list_fmap_ext. intros i l _. rewrite HG. by apply completed_G. }
    assert (Hp : progress es = (if seen.1.1 mod 1000 =? 0 then [(seen.1.2, seen.2)] else [])).
    { rewrite Hes, !progress_app, progress_calls_of, progress_msgs, <- fmap_drop, progress_calls. by destruct (_ =? 0). }
    rewrite Hm in Hes. clear Hm. split; [|split; [done|]].
    - intros l c. rewrite Hes, !said_app, said_calls, said_progress, said_completed by apply nodup_uorder.
      assert (Hd : said (KGroup l tid c) (drop 6 ((fun x : kwd * N => GCall x.1 x.2) <$> cs)) = O).
      { unfold said. rewrite <- fmap_drop. generalize (drop 6 cs). intros r. induction r as [|x r IH]; [done|]. csimpl. by rewrite filter_cons_False. }
      rewrite Hd. pose proof (in_uorder l). destruct (decide (k / gsize l = c /\ _)); [rewrite decide_True by done|rewrite decide_False by tauto]; done.
    - intros pre k0 post E. rewrite Hes in E. apply split_msg in E as (x & y & Ex & ->).
      + assert (Hin : GCompleted k0 ∈ x ++ GCompleted k0 :: y) by (apply elem_of_app; right; left).
        rewrite <- Ex in Hin. apply elem_of_list_join in Hin as (z & Hz1 & Hz2). apply elem_of_list_fmap in Hz2 as (l & -> & Hl).
        destruct (decide _) as [[_ Hmod]|]; [|by apply elem_of_nil in Hz1]. apply elem_of_list_singleton in Hz1. injection Hz1 as ->.
        exists l. split; [done|]. split; [done|]. rewrite calls_app, calls_of.
        assert (Hx : calls x = []).
        { apply calls_msgs. intros e' He'. assert (Hin : e' ∈ x ++ GCompleted (KGroup l tid (k / gsize l)) :: y) by (apply elem_of_app; by left).
          rewrite <- Ex in Hin. apply elem_of_list_join in Hin as (z & Hz1 & Hz2). apply elem_of_list_fmap in Hz2 as (l' & -> & _).
          destruct (decide _); [apply elem_of_list_singleton in Hz1; by eexists|by apply elem_of_nil in Hz1]. }
        rewrite Hx, app_nil_r, cnt_pair. unfold percent. cbn [app]. rewrite !cntk_cons. done.
      + intros k1. apply no_msg_calls.
      + intros k1 Hin. apply elem_of_app in Hin as [Hin|Hin].
        * destruct (_ =? 0); [apply elem_of_list_singleton in Hin; discriminate Hin|by apply elem_of_nil in Hin].
        * rewrite <- fmap_drop in Hin. apply elem_of_list_fmap in Hin as (z & Hz1 & _). discriminate Hz1.
  Qed.

  Lemma log_loop_ok n step tid stream seen : 0 < step -> n + step < 2 ^ 64 ->
    forall m fuel k s, (m < fuel)%nat ->
      t_i s = N.of_nat k -> t_counter s = tid + N.of_nat k * step ->
      (forall l, t_groups s l = G l (N.of_nat k)) -> rok ngroups 0 levels (t_rand s) ->
      n <= tid + N.of_nat (k + m) * step -> (m <> 0%nat -> tid + N.of_nat (k + m - 1) * step < n) ->
      exists es s', log_loop fuel n step tid stream seen s = Ok (es, s') /\ run_ok seen tid (t_rand s) k m es s'.
  Proof using Hz.
    intros Hs Hn m. induction m as [|m IH]; intros [|fuel] k s Hf Ei Ec HG HR Hle Hlt; try lia; cbn [GenLogModel.log_loop].
    - rewrite Ec. destruct (N.ltb_spec (tid + N.of_nat k * step) n) as [H|H].
      { rewrite Nat.add_0_r in Hle. lia. }
      exists [], s. split; [done|]. split; try done.
      + intros l. by rewrite Nat.add_0_r.
      + intros pre k0 post E. by destruct pre.
    - rewrite Ec. specialize (Hlt ltac:(lia)).
      assert (Hk : tid + N.of_nat k * step < n) by nia.
      destruct (N.ltb_spec (tid + N.of_nat k * step) n) as [_|H]; [|lia].
      destruct s as [c0 i0 gs vs]. cbn [t_i t_counter t_groups t_rand] in *. subst c0 i0.
      assert (Hk1 : N.of_nat k + 1 < 2 ^ 64) by nia.
      destruct (log_iteration_ok tid (stream (N.of_nat k)) (seen (N.of_nat k)) (N.of_nat k) vs (tid + N.of_nat k * step) gs HR Hk1 HG)
        as (gs' & vs' & es1 & Eq & HG' & HR' & H1 & H2 & H3 & H5 & H4).
      rewrite Eq. cbn [rbind fst snd t_groups t_rand].
      destruct (IH fuel (S k) (TS ((tid + N.of_nat k * step + step) mod 2 ^ 64) ((N.of_nat k + 1) mod 2 ^ 64) gs' vs'))
        as (es2 & s' & Eq2 & [L1 L2 L3 L4 L5 L7 L6]); cbn [t_i t_counter t_groups t_rand].
      + lia.
      + rewrite N.mod_small by done. lia.
      + rewrite N.mod_small by lia. lia.
      + intros l. rewrite HG'. f_equal. lia.
      + done.
      + by replace (S k + m)%nat with (k + S m)%nat by lia.
      + intros Hm. eapply N.le_lt_trans; [|exact Hlt]. apply N.add_le_mono_l, N.mul_le_mono_r. lia.
      + rewrite Eq2. cbn [rbind fst snd]. exists (es1 ++ es2), s'. split; [done|]. cbn [t_rand] in L4. split.
        * intros l. rewrite L1. f_equal. lia.
        * done.
        * intros l c. rewrite calls_app, cnt_app, H1, L3, gcount_S. done.
        * intros d g. rewrite calls_app, cnt_app. specialize (H2 d g). specialize (L4 d g). lia.
        * intros l c. rewrite said_app, H3, L5. cbn [seq]. destruct (decide _) as [Hd|Hd].
          -- rewrite filter_cons_True by done. done.
          -- rewrite filter_cons_False by done. done.
        * rewrite progress_app, H5, L7. cbn [seq omap list_omap]. by destruct (_ =? 0).
        * intros pre k0 post E. apply app_eq_inv in E as [(t & E1 & E2)|(t & E1 & E2)].
          -- destruct t as [|z t].
             ++ cbn in E2. rewrite app_nil_r in E1. subst pre.
                destruct (L6 [] k0 post (eq_sym E2)) as (l & j & Hj & -> & Hmod & Hc).
                exists l, j. split; [lia|]. split; [done|]. split; [done|]. cbn in Hc. rewrite cnt_nil in Hc. rewrite H1.
                replace (j - k)%nat with (S (j - S k)) by lia. rewrite gcount_S, <- Hc. lia.
             ++ cbn in E2. injection E2 as <- E2. destruct (H4 _ _ _ E1) as (l & -> & Hmod & Hc).
                exists l, k. split; [lia|]. split; [done|]. split; [done|]. rewrite Hc. by rewrite Nat.sub_diag.
          -- subst pre. destruct (L6 _ _ _ E2) as (l & j & Hj & -> & Hmod & Hc).
             exists l, j. split; [lia|]. split; [done|]. split; [done|]. rewrite calls_app, cnt_app, H1, Hc.
             replace (j - k)%nat with (S (j - S k)) by lia. by rewrite gcount_S.
  Qed.
End gen.

(** The numbers of the last line. *)
Lemma least_fold size : forall v a k, let r := foldl (fun acc y => (c_min acc.1 y, if y <? size then acc.2 + 1 else acc.2)) (a, k) v in
  (r.1 = a \/ r.1 ∈ v) /\ r.1 <= a /\ Forall (fun x => r.1 <= x) v /\ r.2 = k + below_size size v.
Proof.
  induction v as [|y v IH]; intros a k; [cbn; split_and!; [by left|lia|done|unfold below_size; cbn; lia]|].
  cbn [foldl]. set (k' := if y <? size then k + 1 else k).
  change (foldl ?f _ v) with (foldl f (c_min a y, k') v).
  destruct (IH (c_min a y) k') as (H1 & H2 & H3 & H4).
  assert (Hm : c_min a y <= a /\ c_min a y <= y /\ (c_min a y = a \/ c_min a y = y)).
  { unfold c_min. destruct (N.ltb_spec y a); lia. }
  split_and!.
  - destruct H1 as [H1|H1]; [|right; by right]. rewrite H1. destruct Hm as (_ & _ & [->| ->]); [by left|right; left].
  - lia.
  - apply Forall_cons. split; [lia|done].
  - rewrite H4. unfold k', below_size. destruct (N.ltb_spec y size).
    + rewrite filter_cons_True by done. cbn [length]. lia.
    + rewrite filter_cons_False by lia. done.
Qed.
Lemma group_stats_ok size v : v <> [] -> exists m, group_stats size v = Ok (m, below_size size v) /\ least v m.
Proof.
  destruct v as [|x v]; [done|]. intros _. unfold group_stats, vat. cbn [lookup list_lookup rbind tail].
  destruct (least_fold size v x (if x <? size then 1 else 0)) as (H1 & H2 & H3 & H4).
  destruct (foldl _ _ v) as [m k]. cbn [fst snd] in *. exists m. split.
  - do 2 f_equal. rewrite H4. unfold below_size. destruct (N.ltb_spec x size).
    + rewrite filter_cons_True by done. cbn [length]. lia.
    + rewrite filter_cons_False by lia. done.
  - split; [destruct H1 as [->|H1]; [left|by right]|]. apply Forall_cons. by split.
Qed.
Lemma level_text_ok ngroups lv size v : length v = N.to_nat (ngroups lv) ->
  exists x, level_text ngroups lv size v = Ok (told_text (bool_decide (lv = O)) x) /\ tells size (ngroups lv) v x.
Proof.
  intros Hl. unfold level_text. destruct (N.ltb_spec 0 (ngroups lv)) as [H|H].
  - destruct (group_stats_ok size v) as (m & E & Hm); [intros ->; cbn in Hl; lia|]. rewrite E. cbn [rbind fst snd].
    exists (Some (m, ngroups lv, below_size size v)). split; [by destruct lv|]. split; [lia|done].
  - exists None. split; [done|]. split; [lia|]. lia.
Qed.
Lemma append_nil_r (s : string) : s +:+ "" = s.
Proof. induction s as [|a s IH]; [done|]. change (String a (s +:+ "") = String a s). by rewrite IH. Qed.
Lemma append_assoc (a b c : string) : (a +:+ b) +:+ c = a +:+ (b +:+ c).
Proof. induction a as [|x a IH]; [done|]. change (String x ((a +:+ b) +:+ c) = String x (a +:+ (b +:+ c))). by rewrite IH. Qed.
Lemma levels_text_ok ngroups vs : rok ngroups 0 levels vs -> exists v2 v3 v4 v5 v6 x2 x3 x4 x5 x6,
  vs = [v2; v3; v4; v5; v6] /\
  levels_text ngroups 0 levels vs = Ok (told_text true x2 +:+ told_text false x3 +:+ told_text false x4 +:+ told_text false x5 +:+ told_text false x6) /\
  tells 100 (ngroups 0%nat) v2 x2 /\ tells 1000 (ngroups 1%nat) v3 x3 /\ tells 10000 (ngroups 2%nat) v4 x4 /\
  tells 100000 (ngroups 3%nat) v5 x5 /\ tells 1000000 (ngroups 4%nat) v6 x6.
Proof.
  unfold levels. destruct vs as [|v2 [|v3 [|v4 [|v5 [|v6 [|]]]]]]; try (cbn; tauto). cbn [rok].
  intros (H2 & _ & H3 & _ & H4 & _ & H5 & _ & H6 & _).
  destruct (level_text_ok ngroups 0 100 v2 H2) as (x2 & E2 & T2). destruct (level_text_ok ngroups 1 1000 v3 H3) as (x3 & E3 & T3).
  destruct (level_text_ok ngroups 2 10000 v4 H4) as (x4 & E4 & T4). destruct (level_text_ok ngroups 3 100000 v5 H5) as (x5 & E5 & T5).
  destruct (level_text_ok ngroups 4 1000000 v6 H6) as (x6 & E6 & T6).
  exists v2, v3, v4, v5, v6, x2, x3, x4, x5, x6. split; [done|]. split; [|done]. cbn [levels_text].
  rewrite E2, E3, E4, E5, E6. cbn [rbind]. rewrite append_nil_r. done.
Qed.

Lemma docs_bound n step tid K : tid < step -> n <= step * K -> docs_of n step tid <= K.
Proof.
  intros Ht Hn. unfold docs_of. pose proof (N.div_mod' n step) as HD. pose proof (N.mod_lt n step ltac:(lia)) as HM.
  set (q := n / step) in *. set (r := n mod step) in *. destruct (N.ltb_spec tid r); nia.
Qed.
Lemma announced_size l size : (glabel_string l, size) ∈ announced -> size = gsize l.
Proof.
  intros H. destruct (announced_label _ _ H) as (l' & E & ->). f_equal.
  destruct l, l'; try done; vm_compute in E; discriminate E.
Qed.
Lemma size_announced l : (glabel_string l, gsize l) ∈ announced.
Proof. Transparent gsize. destruct l; apply (bool_decide_unpack _); by vm_compute. Qed.
Lemma size_10 l : 10 <= gsize l.
Proof. destruct l; apply (bool_decide_unpack _); by vm_compute. Qed.
Global Opaque gsize.
Lemma M_val : M = 2 ^ 32 - 1.
Proof. done. Qed.

Section props.
  Context (ngroups : nat -> N) (below : nat -> N -> bool).
  Context (Hz : forall lv ind, ngroups lv = 0 -> below lv ind = false).
  Local Notation logged_job := (logged_job ngroups below).
  Local Notation generation_job := (generation_job ngroups below).

  Lemma logged_job_ok n step tid stream seen : tid < step -> n + step < 2 ^ 64 ->
    exists es s text e, logged_job n step tid stream seen = Ok (es, text) /\ summary ngroups tid s = Ok text /\
      generation_job n step tid stream = Ok (calls es, docs_of n step tid, e) /\
      run_ok ngroups seen tid ((fun lv => replicate (N.to_nat (ngroups lv)) 0) <$> seq 0 5) 0 (N.to_nat (docs_of n step tid)) es s.
  Proof using Hz.
    intros Ht Hn. pose proof (N.div_mod' n step) as HD. pose proof (N.mod_lt n step ltac:(lia)) as HM.
    destruct (job_ok ngroups below Hz n step tid stream Ht Hn) as (log & Hj & _).
    set (s0 := TS tid 0 (fun _ => Grp 0 None) ((fun lv => replicate (N.to_nat (ngroups lv)) 0) <$> seq 0 5)).
    destruct (log_loop_ok ngroups below Hz n step tid stream seen ltac:(lia) Hn (N.to_nat (docs_of n step tid)) (S (N.to_nat n)) 0 s0)
      as (es & s' & E & HR); subst s0; cbn [t_i t_counter t_groups t_rand].
    - unfold docs_of. set (q := n / step) in *. set (r := n mod step) in *. destruct (N.ltb_spec tid r); nia.
    - done.
    - lia.
    - intros l. by rewrite G0.
    - apply rok_init.
    - rewrite Nat.add_0_l, N2Nat.id. unfold docs_of. set (q := n / step) in *. set (r := n mod step) in *.
      destruct (N.ltb_spec tid r); nia.
    - intros Hne. rewrite Nat.add_0_l. replace (N.of_nat (N.to_nat (docs_of n step tid) - 1)) with (docs_of n step tid - 1) by lia.
      assert (docs_of n step tid <> 0) by lia.
      unfold docs_of in *. set (q := n / step) in *. set (r := n mod step) in *.
      destruct (N.ltb_spec tid r); [nia|]. destruct (N.eq_dec q 0); [lia|]. nia.
    - unfold DbGenModel.generation_job in Hj. destruct (log_loop_calls ngroups below n step tid stream seen _ _ _ _ _ Hj) as (es2 & s2 & E2 & Hc).
      rewrite E2 in E. injection E as -> ->.
      destruct (levels_text_ok ngroups (t_rand s') (ro_rok _ _ _ _ _ _ _ _ HR)) as (? & ? & ? & ? & ? & ? & ? & ? & ? & ? & _ & Ht' & _).
      unfold GenLogModel.logged_job. rewrite E2. cbn [rbind fst snd].
      destruct (summary ngroups tid s') as [text| | |] eqn:Es; try (unfold summary in Es; rewrite Ht' in Es; discriminate Es).
      cbn [rbind]. exists es, s', text, (N.of_nat (length log)). split; [done|]. split; [done|]. split; [|done]. by rewrite Hc.
  Qed.

  Lemma said_count l c m :
    length (filter (fun j => N.of_nat j / gsize l = c /\ c < M /\ (N.of_nat j + 1) mod gsize l = 0) (seq 0 m)) =
    if decide (c < M /\ (c + 1) * gsize l <= N.of_nat m) then 1%nat else 0%nat.
  Proof using.
    pose proof (gsize_pos l) as Hs. destruct (decide _) as [[Hc H]|H].
    - assert (HP : filter (fun j => N.of_nat j / gsize l = c /\ c < M /\ (N.of_nat j + 1) mod gsize l = 0) (seq 0 m) ≡ₚ [N.to_nat (c * gsize l + gsize l - 1)]).
      { apply NoDup_Permutation; [apply NoDup_filter, NoDup_seq|apply NoDup_singleton|]. intros j.
        rewrite elem_of_list_filter, elem_of_seq, elem_of_list_singleton. split.
        - intros [(Hj & _ & Hj2) Hj3]. apply div_char in Hj; [|done].
          apply N.mod_divide in Hj2 as [z Hz2]; [|lia]. assert (z = c + 1) by nia. nia.
        - intros ->. rewrite N2Nat.id. split_and!; try lia.
          + apply div_char; [done|]. lia.
          + replace (c * gsize l + gsize l - 1 + 1) with ((c + 1) * gsize l) by lia. apply N.mod_mul. lia. }
      by rewrite HP.
    - assert (HN : filter (fun j => N.of_nat j / gsize l = c /\ c < M /\ (N.of_nat j + 1) mod gsize l = 0) (seq 0 m) = []); [|by rewrite HN].
      apply elem_of_nil_inv. intros j. rewrite elem_of_list_filter, elem_of_seq. intros [(Hj & Hc & Hj2) Hj3]. apply H. split; [done|].
      apply div_char in Hj; [|done]. apply N.mod_divide in Hj2 as [z Hz2]; [|lia]. assert (z = c + 1) by nia. subst z. nia.
  Qed.
  (** Without a bound on the number of documents: the keyword number [c] of a group is said to be
      complete once, when the thread has generated [(c + 1) * size] documents and the 32-bit
      counter is not used up. *)
  Theorem C124_said n step tid stream seen : tid < step -> n + step < 2 ^ 64 ->
    exists es text docs entries, logged_job n step tid stream seen = Ok (es, text) /\
      generation_job n step tid stream = Ok (calls es, docs, entries) /\
      forall l size c, (glabel_string l, size) ∈ announced ->
        said (KGroup l tid c) es = if decide (c < 2 ^ 32 - 1 /\ (c + 1) * size <= docs) then 1%nat else 0%nat.
  Proof using Hz.
    intros Ht Hn. destruct (logged_job_ok n step tid stream seen Ht Hn) as (es & s & text & e & E & _ & Ej & [_ _ _ _ HS _ _]).
    exists es, text, (docs_of n step tid), e. split; [done|]. split; [done|].
    intros l size c ->%announced_size. by rewrite HS, said_count, N2Nat.id, M_val.
  Qed.

  (** C124.  The messages change nothing of what is generated; "completed keyword" is written
      once for each keyword of a fixed-size group that gets all its documents, and for no other
      keyword; it is written before the last of them is.  The progress line is written for the
      documents at which the number of documents is a multiple of 1000. *)
  Theorem C124_completed n step tid stream seen : tid < step -> n + step < 2 ^ 64 -> n <= step * (10 * (2 ^ 32 - 1)) ->
    exists es text docs entries, logged_job n step tid stream seen = Ok (es, text) /\
      generation_job n step tid stream = Ok (calls es, docs, entries) /\
      progress es = omap (fun j => let '(d, d', e) := seen (N.of_nat j) in if d mod 1000 =? 0 then Some (d', e) else None)
        (seq 0 (N.to_nat docs)) /\
      (forall l size c, (glabel_string l, size) ∈ announced ->
        said (KGroup l tid c) es = if decide (held (KGroup l tid c) (calls es) = size) then 1%nat else 0%nat) /\
      (forall pre k post, es = pre ++ GCompleted k :: post -> exists l size c, (glabel_string l, size) ∈ announced /\
        k = KGroup l tid c /\ held k (calls pre) = size - 1 /\ held k (calls es) = size).
  Proof using Hz.
    intros Ht Hn Hb. destruct (logged_job_ok n step tid stream seen Ht Hn) as (es & s & text & e & E & _ & Ej & [_ _ HK _ HS HP0 HW]).
    exists es, text, (docs_of n step tid), e. split; [done|]. split; [done|].
    split; [rewrite HP0; apply list_omap_ext, Forall2_same_length_lookup; split; [done|]; intros i x y -> [= ->]; by destruct (seen (N.of_nat y)) as [[]]|].
    pose proof (docs_bound _ _ _ _ Ht Hb) as Hd. set (m := N.to_nat (docs_of n step tid)) in *.
    assert (Hm : forall l, N.of_nat m <= gsize l * M).
    { intros l. pose proof (size_10 l). rewrite M_val. unfold m. rewrite N2Nat.id. nia. }
    split.
    - intros l size c ->%announced_size. rewrite held_cnt, HK, HS, said_count, gcount_exact by done. pose proof (gsize_pos l) as Hs.
      specialize (Hm l). destruct (N.ltb_spec c M) as [Hc|Hc].
      + destruct (decide (N.min _ _ = _)) as [H|H]; [rewrite decide_True; [done|nia]|rewrite decide_False; [done|nia]].
      + rewrite !decide_False by lia. done.
    - intros pre k post Es. destruct (HW _ _ _ Es) as (l & j & Hj & -> & Hmod & Hc). pose proof (gsize_pos l) as Hs. specialize (Hm l).
      exists l, (gsize l), (N.of_nat j / gsize l). split; [apply size_announced|]. split; [done|].
      assert (Hq : N.of_nat j / gsize l < M) by (apply N.div_lt_upper_bound; lia).
      apply N.mod_divide in Hmod as [z Hz2]; [|lia]. set (q := N.of_nat j / gsize l) in *.
      assert (Hjq : q * gsize l <= N.of_nat j /\ N.of_nat j < q * gsize l + gsize l) by (by apply div_char).
      assert (z = q + 1) by nia. subst z. rewrite !held_cnt, Hc, HK, Nat.sub_0_r, !gcount_exact by lia.
      destruct (N.ltb_spec q M); lia.
  Qed.

  (** The last line: how many keywords of the first five fixed-size groups are complete, and for
      the random groups, which the name of the keyword does not tell apart for 10^2 and 10^3, the
      least number of documents, how many groups there are and how many of them are not full. *)
  Theorem C124_summary n step tid stream seen : tid < step -> n + step < 2 ^ 64 -> n <= step * (10 * (2 ^ 32 - 2)) ->
    exists es docs entries c1 c2 c3 c4 c5 x2 x3 x4 x5 x6 v2 v3 v4 v5 v6,
      logged_job n step tid stream seen = Ok (es, line tid c1 c2 c3 c4 c5 x2 x3 x4 x5 x6) /\
      generation_job n step tid stream = Ok (calls es, docs, entries) /\
      complete G10_1 10 tid (calls es) c1 /\ complete G10_2 100 tid (calls es) c2 /\ complete G10_3 1000 tid (calls es) c3 /\
      complete G10_4 10000 tid (calls es) c4 /\ complete G10_5 100000 tid (calls es) c5 /\
      tells 100 (ngroups 0%nat) v2 x2 /\ tells 1000 (ngroups 1%nat) v3 x3 /\ tells 10000 (ngroups 2%nat) v4 x4 /\
      tells 100000 (ngroups 3%nat) v5 x5 /\ tells 1000000 (ngroups 4%nat) v6 x6 /\
      (forall g, held (KRand 3 tid (N.of_nat g)) (calls es) = default 0 (v2 !! g) + default 0 (v3 !! g)) /\
      (forall g, held (KRand 4 tid (N.of_nat g)) (calls es) = default 0 (v4 !! g)) /\
      (forall g, held (KRand 5 tid (N.of_nat g)) (calls es) = default 0 (v5 !! g)) /\
      (forall g, held (KRand 6 tid (N.of_nat g)) (calls es) = default 0 (v6 !! g)).
  Proof using Hz.
    intros Ht Hn Hb. destruct (logged_job_ok n step tid stream seen Ht Hn) as (es & s & text & e & E & Et & Ej & [HG HR HK HO _ _ _]).
    destruct (levels_text_ok ngroups (t_rand s) HR) as (v2 & v3 & v4 & v5 & v6 & x2 & x3 & x4 & x5 & x6 & Ev & Ex & T2 & T3 & T4 & T5 & T6).
    pose proof (docs_bound _ _ _ _ Ht Hb) as Hd. set (m := N.to_nat (docs_of n step tid)) in *.
    assert (Hm : forall l, N.of_nat m <= gsize l * (M - 1)).
    { intros l. pose proof (size_10 l). rewrite M_val. unfold m. rewrite N2Nat.id. nia. }
    assert (HC : forall l, complete l (gsize l) tid (calls es) (g_counter (t_groups s l))).
    { intros l. specialize (Hm l). pose proof (gsize_pos l) as Hs. pose proof M_pos as HM. rewrite HG. unfold G. cbn [g_counter]. rewrite Nat.add_0_l.
      assert (Hq : N.of_nat m / gsize l <= M - 1) by (apply N.div_le_upper_bound; lia). rewrite N.min_l by lia.
      set (q := N.of_nat m / gsize l) in *.
      assert (Hjq : q * gsize l <= N.of_nat m /\ N.of_nat m < q * gsize l + gsize l) by (by apply div_char).
      assert (HX : forall c, held (KGroup l tid c) (calls es) = if c <? M then N.min (gsize l) (N.of_nat m - c * gsize l) else 0).
      { intros c. rewrite held_cnt, HK, gcount_exact by lia. done. }
      split; [|split].
      - intros i Hi. rewrite HX. destruct (N.ltb_spec i M); [|lia]. nia.
      - rewrite HX. destruct (N.ltb_spec q M); lia.
      - intros i Hi. rewrite HX. destruct (N.ltb_spec i M); [|done]. nia. }
    unfold summary in Et. rewrite Ex in Et. cbn [rbind] in Et. apply ok_inj in Et. subst text.
    exists es, (docs_of n step tid), e, (g_counter (t_groups s G10_1)), (g_counter (t_groups s G10_2)), (g_counter (t_groups s G10_3)),
      (g_counter (t_groups s G10_4)), (g_counter (t_groups s G10_5)), x2, x3, x4, x5, x6, v2, v3, v4, v5, v6.
    split; [rewrite E, !append_assoc; done|]. split; [done|].
    assert (HO' : forall d g, held (KRand d tid (N.of_nat g)) (calls es) = occ d g levels (t_rand s)).
    { intros d g. rewrite held_cnt, <- HO. assert (HZ : occ d g levels ((fun lv => replicate (N.to_nat (ngroups lv)) 0) <$> seq 0 5) = 0); [|lia].
      unfold levels. cbn [seq fmap list_fmap occ]. 
      assert (HZ : forall k, default 0 (replicate k 0 !! g) = 0).
      { intros k. destruct (replicate k 0 !! g) as [y|] eqn:Ey; [|done]. apply lookup_replicate in Ey as [-> _]. done. }
      rewrite !HZ. by repeat destruct (_ =? _). }
    rewrite Ev in HO'.
    split_and!; try done; try (apply HC); intros g; rewrite HO'; unfold levels; cbn [occ]; cbn; lia.
  Qed.
End props.

(** The line that should tell how many documents and entries there are tells neither. *)
Lemma fmt_braceless args s : Forall (fun c => c <> 123 /\ c <> 125) s -> fmt args s = Some s.
Proof.
  induction 1 as [|c s [H1 H2] _ IH]; [done|]. cbn [fmt].
  rewrite (proj2 (N.eqb_neq _ _) H1), (proj2 (N.eqb_neq _ _) H2), IH. done.
Qed.
Theorem C124_progress docs entries :
  progress_line docs entries = Some (str_bytes "Random DB generation : documents generated ( entries)").
Proof. apply fmt_braceless. apply (bool_decide_unpack _). by vm_compute. Qed.
Theorem C124_progress_refuted : exists docs entries docs' entries',
  progress_line docs entries = progress_line docs' entries' /\ docs <> docs' /\ entries <> entries'.
Proof. exists 1000, 15000, 2000, 30000. by rewrite !C124_progress. Qed.

Transparent gsize max_10_counter.
(** A keyword is said to be complete although a document of it is missing. *)
Theorem C124_completed_refuted : exists n step tid stream seen es text pre k post,
  logged_job (exact_groups n step) (exact_below n step) n step tid stream seen = Ok (es, text) /\
  es = pre ++ GCompleted k :: post /\ k = KGroup G10_1 0 0 /\ held k (calls pre) = 9.
Proof.
  exists 10, 1, 0, (fun _ => 0), (fun i => (i, i, i)).
  destruct (logged_job (exact_groups 10 1) (exact_below 10 1) 10 1 0 (fun _ => 0) (fun i => (i, i, i))) as [[es text]| | |] eqn:E;
    [|exfalso; vm_compute in E; discriminate E..].
  exists es, text, (take 142 es), (KGroup G10_1 0 0), (drop 143 es). split; [done|].
  assert (Hes : es = match logged_job (exact_groups 10 1) (exact_below 10 1) 10 1 0 (fun _ => 0) (fun i => (i, i, i)) with Ok x => x.1 | _ => [] end)
    by (by rewrite E).
  clear E. split; [|split; [done|]].
  - assert (Hl : es !! 142%nat = Some (GCompleted (KGroup G10_1 0 0))) by (rewrite Hes; by vm_compute).
    by rewrite (take_drop_middle _ _ _ Hl).
  - rewrite Hes. by vm_compute.
Qed.

(** The least number of documents told for the groups of 10^3 is not that of the keywords that
    have 10^3 in their name. *)
Theorem C124_rand_refuted : exists n step tid stream seen es k,
  logged_job (exact_groups n step) (exact_below n step) n step tid stream seen =
    Ok (es, line tid 120 12 1 0 0 (Some (0, 9, 8)) (Some (1000, 1, 0)) None None None) /\
  kw_string k = "Group-rand-10^3_0_0" /\ held k (calls es) = 1100.
Proof.
  exists 1200, 1, 0, (fun _ => 0), (fun i => (i, i, i)).
  set (j := logged_job (exact_groups 1200 1) (exact_below 1200 1) 1200 1 0 (fun _ => 0) (fun i => (i, i, i))).
  assert (H : match j with Ok x => Some (x.2, held (KRand 3 0 0) (calls x.1)) | _ => None end =
    Some (line 0 120 12 1 0 0 (Some (0, 9, 8)) (Some (1000, 1, 0)) None None None, 1100)) by (by vm_compute).
  destruct j as [[es text]| | |]; try discriminate H. cbn [fst snd] in H. injection H as -> H.
  exists es, (KRand 3 0 0). split; [done|]. split; [by vm_compute|done].
Qed.

(** The theorems on a concrete database: 2500 documents, the second of three threads. *)
Example C124_example : 1 < 3 /\ 2500 + 3 < 2 ^ 64 /\ 2500 <= 3 * (10 * (2 ^ 32 - 2)) /\
  (forall lv ind, exact_groups 2500 3 lv = 0 -> exact_below 2500 3 lv ind = false) /\
  match logged_job (exact_groups 2500 3) (exact_below 2500 3) 2500 3 1 (ex_stream 1) (fun i => (3 * i + 2, 3 * i + 2, 45 * i + 30)) with
  | Ok (es, text) =>
      text = "Random DB generation: thread 1 completed: (83, 8, 0, 0, 0) min rand: (100/6/0)" /\
      said (KGroup G10_2 1 7) es = 1%nat /\ said (KGroup G10_2 1 8) es = 0%nat /\
      held (KGroup G10_2 1 7) (calls es) = 100 /\ held (KGroup G10_2 1 8) (calls es) = 33 /\
      held (KRand 3 1 5) (calls es) = 100 /\ progress es = [(2000, 30000)]
  | _ => False
  end.
Proof.
  split; [done|]. split; [done|]. split; [done|]. split; [apply exact_zero|].
  set (j := logged_job _ _ _ _ _ _ _).
  assert (H : match j with Ok x => Some (x.2, said (KGroup G10_2 1 7) x.1, said (KGroup G10_2 1 8) x.1,
      held (KGroup G10_2 1 7) (calls x.1), held (KGroup G10_2 1 8) (calls x.1), held (KRand 3 1 5) (calls x.1),
      progress x.1) | _ => None end =
    Some ("Random DB generation: thread 1 completed: (83, 8, 0, 0, 0) min rand: (100/6/0)", 1%nat, 0%nat, 100, 33, 100, [(2000, 30000)]))
    by (by vm_compute).
  destruct j as [[es text]| | |]; try discriminate H. cbn [fst snd] in H.
  injection H as -> H1 H2 H3 H4 H5 H6. done.
Qed.
Global Opaque gsize max_10_counter.

Print Assumptions C124_said.
Print Assumptions C124_completed.
Print Assumptions C124_summary.
Print Assumptions C124_progress.
Print Assumptions C124_progress_refuted.
Print Assumptions C124_completed_refuted.
Print Assumptions C124_rand_refuted.
