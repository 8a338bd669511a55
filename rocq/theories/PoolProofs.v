(** Proofs about threads and thread pools. *)
From stdpp Require Import prelude.
From Coq Require Import Lia.
From Verif Require Import Base PoolModel PoolSpec.

Section proofs.
  Context {T R : Type} (code : T -> list (act T R)).
  Local Notation act := (act T R).
  Local Notation wk := (wk T R).
  Local Notation pool := (pool T R).
  Local Notation sys := (sys T R).
  Local Notation step := (step code).
  Local Notation delivers := (delivers code).
  Local Notation fits := (fits code).

  Local Arguments PoolSpec.delivers : simpl never.
  Local Arguments PoolSpec.fits : simpl never.

  Lemma delivers_nil d : delivers d [] = [].
  Proof. by destruct d. Qed.
  Lemma delivers_emit d r acts : delivers d (AEmit r :: acts) = r :: delivers d acts.
  Proof. by destruct d. Qed.
  Lemma delivers_enq d t acts : delivers (S d) (AEnq t :: acts) = delivers d (code t) ++ delivers (S d) acts.
  Proof. done. Qed.
  Lemma fits_cons d a acts : fits d (a :: acts) <->
    match a with AEmit _ => True | AEnq t => match d with 0 => False | S d' => fits d' (code t) end end
    /\ fits d acts.
  Proof. destruct d; apply Forall_cons. Qed.

  (** ** Accounting of the results *)
  Definition wk_out (d : nat) (w : wk) : list R :=
    match w with WRun a | WNotify a => delivers d a | _ => [] end.
  Definition pool_out (d : nat) (p : pool) : list R :=
    (p_queue p ≫= fun t => delivers d (code t)) ++ (p_workers p ≫= wk_out d).
  Fixpoint pend (n : nat) (ps : list pool) : list R :=
    match ps with [] => [] | p :: ps' => pool_out (n + length ps') p ++ pend n ps' end.
  Definition refused_out (l : list (nat * T)) : list R := l ≫= fun x => delivers x.1 (code x.2).
  Definition total (s : sys) : list R := s_out s ++ pend 0 (s_pools s) ++ refused_out (s_refused s).

  Definition wk_fits (d : nat) (w : wk) : Prop :=
    match w with WRun a => fits d a | WNotify a => fits d a /\ 0 < d | _ => True end.
  Definition pool_fits (d : nat) (p : pool) : Prop :=
    Forall (fun t => fits d (code t)) (p_queue p) /\ Forall (wk_fits d) (p_workers p).
  Fixpoint all_fit (n : nat) (ps : list pool) : Prop :=
    match ps with [] => True | p :: ps' => pool_fits (n + length ps') p /\ all_fit n ps' end.

  Lemma pend_app n a b : pend n (a ++ b) = pend (n + length b) a ++ pend n b.
  Proof.
    induction a as [|p a IH]; simpl; [done|]. rewrite IH, app_length, app_assoc.
    do 3 f_equal. lia.
  Qed.
  Lemma all_fit_app n a b : all_fit n (a ++ b) <-> all_fit (n + length b) a /\ all_fit n b.
  Proof.
    induction a as [|p a IH]; simpl; [tauto|]. rewrite IH, app_length.
    replace (n + (length a + length b)) with (n + length b + length a) by lia. tauto.
  Qed.

  (** Simplification of the accounting functions over a context. *)
  Ltac ctx := unfold total, refused_out; simpl; rewrite ?pend_app; simpl; unfold pool_out; simpl;
    rewrite ?bind_app; csimpl; rewrite ?delivers_nil, ?delivers_emit.

  Lemma step_total s s' : any_step code s s' -> all_fit 0 (s_pools s) ->
    total s' ≡ₚ total s /\ all_fit 0 (s_pools s').
  Proof.
    intros [H|H] F.
    - destruct H; simpl in *; apply all_fit_app in F as [F1 F2]; simpl in F2.
      + destruct F2 as [[F3 F4] F5]. simpl in F3, F4. apply Forall_app in F4 as [F6 F4].
        apply Forall_cons in F4 as [F7 F8]. split.
        * destruct H; ctx; solve_Permutation.
        * apply all_fit_app. split; [done|]. split; [|done]. split; simpl.
          -- destruct H; auto. by apply Forall_cons in F3 as [_ ?].
          -- apply Forall_app. split; [done|]. constructor; [|done].
             destruct H; simpl; auto.
             ++ by apply Forall_cons in F3 as [? _].
             ++ by apply fits_cons in F7 as [_ ?].
      + destruct F2 as [[F3 F4] [[G1 G2] F5]]. simpl in F3, F4, G1, G2. apply Forall_app in F4 as [F6 F4].
        apply Forall_cons in F4 as [F7 F8]. simpl in F7. apply fits_cons in F7 as [F7 F9]. split.
        * ctx. rewrite delivers_enq. solve_Permutation.
        * apply all_fit_app. split; [done|]. split; [|split; [|done]].
          -- split; simpl; [done|]. apply Forall_app. split; [done|]. constructor; [|done]. simpl. split; [done|lia].
          -- split; simpl; [|done]. apply Forall_app. split; [done|]. by constructor.
      + destruct F2 as [[F3 F4] [[G1 G2] F5]]. simpl in F3, F4, G1, G2. apply Forall_app in F4 as [F6 F4].
        apply Forall_cons in F4 as [F7 F8]. simpl in F7. apply fits_cons in F7 as [F7 F9]. split.
        * ctx. rewrite delivers_enq. solve_Permutation.
        * apply all_fit_app. split; [done|]. split; [|split; [|done]].
          -- split; simpl; [done|]. apply Forall_app. split; [done|]. by constructor.
          -- by split.
      + destruct F2 as [[F3 F4] [[G1 G2] F5]]. simpl in F3, F4, G1, G2. apply Forall_app in F4 as [F6 F4].
        apply Forall_cons in F4 as [F7 F8]. apply Forall_app in G2 as [G2 G3].
        apply Forall_cons in G3 as [_ G3]. split.
        * ctx. solve_Permutation.
        * apply all_fit_app. split; [done|]. split; [|split; [|done]].
          -- split; simpl; [done|]. apply Forall_app. split; [done|]. constructor; [|done]. apply F7.
          -- split; simpl; [done|]. apply Forall_app. split; [done|]. by constructor.
      + destruct F2 as [[F3 F4] [[G1 G2] F5]]. simpl in F3, F4, G1, G2. apply Forall_app in F4 as [F6 F4].
        apply Forall_cons in F4 as [F7 F8]. split.
        * ctx. solve_Permutation.
        * apply all_fit_app. split; [done|]. split; [|split; [|done]].
          -- split; simpl; [done|]. apply Forall_app. split; [done|]. constructor; [|done]. apply F7.
          -- by split.
      + split; [ctx; solve_Permutation|]. apply all_fit_app. done.
      + split.
        * assert (E : (wake <$> ws) ≫= wk_out (length post) = ws ≫= wk_out (length post)).
          { clear. induction ws as [|w ws IH]; csimpl; [done|]. rewrite IH. by destruct w. }
          ctx. rewrite E. solve_Permutation.
        * apply all_fit_app. split; [done|]. destruct F2 as [[F3 F4] F5]. split; [|done]. split; [done|].
          simpl in *. apply Forall_fmap. eapply Forall_impl; [exact F4|]. by intros [].
      + split; [done|]. apply all_fit_app. done.
    - destruct H; simpl in *; apply all_fit_app in F as [F1 F2]; simpl in F2.
      destruct F2 as [[F3 F4] F5]. simpl in F3, F4. apply Forall_app in F4 as [F6 F4].
      apply Forall_cons in F4 as [F7 F8]. split; [ctx; solve_Permutation|].
      apply all_fit_app. split; [done|]. split; [|done]. split; simpl; [done|].
      apply Forall_app. split; [done|]. by constructor.
  Qed.

  Lemma reaches_total s s' : reaches code s s' -> all_fit 0 (s_pools s) ->
    total s' ≡ₚ total s /\ all_fit 0 (s_pools s').
  Proof.
    induction 1 as [|s1 s2 s3 H _ IH]; intros F; [done|].
    destruct (step_total _ _ H F) as [E F']. destruct (IH F') as [E2 F2].
    split; [by etransitivity|done].
  Qed.

  (** ** Exits *)
  (** A worker exits only from a stopped pool whose queue is empty. *)
  Definition exit_ok (p : pool) : Prop := WExit ∈ p_workers p -> p_stop p = true /\ p_queue p = [].
  Definition exits (s : sys) : Prop := Forall exit_ok (s_pools s).

  Lemma step_exits s s' : any_step code s s' -> exits s -> exits s'.
  Proof.
    unfold exits. intros [H|H] F.
    - destruct H; simpl in *; rewrite ?Forall_app, ?Forall_cons in *.
      + destruct F as (F1 & F2 & F3). split_and!; auto. unfold exit_ok in *. simpl in *.
        rewrite elem_of_app, elem_of_cons in *. destruct H; try naive_solver.
      + destruct F as (F1 & F2 & F3 & F4). split_and!; auto; unfold exit_ok in *; simpl in *.
        * rewrite elem_of_app, elem_of_cons in *. naive_solver.
        * intros Hw. by destruct (F3 Hw) as [? _].
      + destruct F as (F1 & F2 & F3 & F4). split_and!; auto; unfold exit_ok in *; simpl in *.
        rewrite elem_of_app, elem_of_cons in *. naive_solver.
      + destruct F as (F1 & F2 & F3 & F4). split_and!; auto; unfold exit_ok in *; simpl in *;
          rewrite elem_of_app, elem_of_cons in *; naive_solver.
      + destruct F as (F1 & F2 & F3 & F4). split_and!; auto; unfold exit_ok in *; simpl in *;
          rewrite elem_of_app, elem_of_cons in *; naive_solver.
      + destruct F as (F1 & F2 & F3). split_and!; auto; unfold exit_ok in *; simpl in *. naive_solver.
      + destruct F as (F1 & F2 & F3). split_and!; auto; unfold exit_ok in *; simpl in *.
        intros Hw. apply F2. apply elem_of_list_fmap in Hw as (w & E & Hw). by destruct w.
      + done.
    - destruct H; simpl in *; rewrite ?Forall_app, ?Forall_cons in *.
      destruct F as (F1 & F2 & F3). split_and!; auto; unfold exit_ok in *; simpl in *.
      rewrite elem_of_app, elem_of_cons in *; naive_solver.
  Qed.
  Lemma reaches_exits s s' : reaches code s s' -> exits s -> exits s'.
  Proof. induction 1; eauto using step_exits. Qed.

  (** ** Joining *)
  Definition done_pool (p : pool) : Prop := Forall (fun w => w = WExit) (p_workers p).
  (** How a pool evolves when the main thread does not act on it. *)
  Definition evolves (p p' : pool) : Prop :=
    (done_pool p -> done_pool p') /\ p_stop p' = p_stop p /\
    length (p_workers p') = length (p_workers p) /\
    (p_stop p = true -> WSleep ∈ p_workers p' -> WSleep ∈ p_workers p).
  Global Instance evolves_refl : Reflexive evolves.
  Proof. intros p. by split_and!. Qed.

  Lemma evolves_worker q st q' w1 w w' w2 :
    w <> WExit -> (st = true -> w' <> WSleep) ->
    evolves (Pool q st (w1 ++ w :: w2)) (Pool q' st (w1 ++ w' :: w2)).
  Proof.
    intros Hw Hs. split_and!; simpl; auto; [|by rewrite !app_length|].
    - unfold done_pool. simpl. rewrite !Forall_app, !Forall_cons. naive_solver.
    - intros E. rewrite !elem_of_app, !elem_of_cons. naive_solver.
  Qed.
  Lemma F2_refl {A} (P : A -> A -> Prop) `{!Reflexive P} l : Forall2 P l l.
  Proof. induction l; by constructor. Qed.
  Lemma Forall2_mid {A} (P : A -> A -> Prop) `{!Reflexive P} pre x y post :
    P x y -> Forall2 P (pre ++ x :: post) (pre ++ y :: post).
  Proof. intros. apply Forall2_app; [by apply F2_refl|]. constructor; [done|]. by apply F2_refl. Qed.
  Lemma Forall2_mid2 {A} (P : A -> A -> Prop) `{!Reflexive P} pre x y x' y' post :
    P x y -> P x' y' -> Forall2 P (pre ++ x :: x' :: post) (pre ++ y :: y' :: post).
  Proof. intros. apply Forall2_app; [by apply F2_refl|]. do 2 (constructor; [done|]). by apply F2_refl. Qed.

  (** Classification of the steps by what they do to the main thread. *)
  Inductive main_step (s s' : sys) : Prop :=
  | ms_none : s_main s' = s_main s -> Forall2 evolves (s_pools s) (s_pools s') ->
      (s_refused s' = s_refused s \/
       exists k p p' w, s_pools s !! k = Some p /\ w ∈ p_workers p /\ w <> WExit /\
         s_pools s !! S k = Some p' /\ p_stop p' = true) -> main_step s s'
  | ms_stop pre q st ws post ks : s_pools s = pre ++ Pool q st ws :: post ->
      s_pools s' = pre ++ Pool q true ws :: post ->
      s_main s = MJoin (length pre :: ks) -> s_main s' = MNotify (length pre) ks ->
      s_refused s' = s_refused s -> main_step s s'
  | ms_notify pre q st ws post ks : s_pools s = pre ++ Pool q st ws :: post ->
      s_pools s' = pre ++ Pool q st (wake <$> ws) :: post ->
      s_main s = MNotify (length pre) ks -> s_main s' = MWait (length pre) ks ->
      s_refused s' = s_refused s -> main_step s s'
  | ms_wait k p ks : s_pools s' = s_pools s -> s_pools s !! k = Some p -> done_pool p ->
      s_main s = MWait k ks -> s_main s' = MJoin ks ->
      s_refused s' = s_refused s -> main_step s s'.

  Lemma step_main s s' : any_step code s s' -> main_step s s'.
  Proof.
    intros [H|H].
    - destruct H.
      + apply ms_none; simpl; auto. apply Forall2_mid; [apply _|]. apply evolves_worker; [by destruct H|].
        by destruct H.
      + apply ms_none; simpl; auto. apply Forall2_mid2; [apply _| |].
        * by apply evolves_worker.
        * by split_and!.
      + apply ms_none; simpl; auto.
        * apply Forall2_mid2; [apply _| |]; [by apply evolves_worker|done].
        * right. exists (length pre), (Pool q st (w1 ++ WRun (AEnq t :: acts) :: w2)),
            (Pool q' true ws'), (WRun (AEnq t :: acts)). split_and!; try done.
          -- by apply list_lookup_middle.
          -- simpl. apply elem_of_app. right. left.
          -- rewrite lookup_app_r by lia. by replace (S (length pre) - length pre) with 1 by lia.
      + apply ms_none; simpl; auto. apply Forall2_mid2; [apply _| |]; by apply evolves_worker.
      + apply ms_none; simpl; auto. apply Forall2_mid2; [apply _| |]; [by apply evolves_worker|done].
      + eapply ms_stop; done.
      + eapply ms_notify; done.
      + eapply ms_wait; try done; [by apply list_lookup_middle|done].
    - destruct H. apply ms_none; simpl; auto. apply Forall2_mid; [apply _|]. by apply evolves_worker.
  Qed.

  Lemma lookup_mid {A} (pre : list A) x post k y : (pre ++ x :: post) !! k = Some y ->
    (k = length pre /\ y = x) \/ (k <> length pre /\ forall x', (pre ++ x' :: post) !! k = Some y).
  Proof.
    intros H. destruct (decide (k = length pre)) as [->|Hne].
    - left. rewrite list_lookup_middle in H by done. by simplify_eq.
    - right. split; [done|]. intros x'. apply lookup_app_Some in H as [H|[H1 H2]].
      + by apply lookup_app_l_Some.
      + rewrite lookup_app_r by done. destruct (k - length pre) eqn:E; [lia|done].
  Qed.

  (** *** Joined pools are finished *)
  Definition joined (order : list nat) (s : sys) : Prop :=
    exists dn,
      (match s_main s with MJoin ks => order = dn ++ ks | MNotify k ks | MWait k ks => order = dn ++ k :: ks end) /\
      forall k p, k ∈ dn -> s_pools s !! k = Some p -> done_pool p.

  Lemma done_back s s' : any_step code s s' -> forall k p', s_pools s' !! k = Some p' ->
    (exists p, s_pools s !! k = Some p /\ (done_pool p -> done_pool p')).
  Proof.
    intros H k p' Hk. destruct (step_main _ _ H) as [_ H2 _|pre q st ws post ks E1 E2 _ _ _
      |pre q st ws post ks E1 E2 _ _ _|k0 p ks E1 _ _ _ _ _].
    - destruct (Forall2_lookup_r _ _ _ _ _ H2 Hk) as (p & Hp & (Hd & _)). eauto.
    - rewrite E2 in Hk. rewrite E1. destruct (lookup_mid _ _ _ _ _ Hk) as [[-> ->]|[_ Hx]].
      + eexists. split; [by apply list_lookup_middle|]. done.
      + exists p'. split; [apply Hx|done].
    - rewrite E2 in Hk. rewrite E1. destruct (lookup_mid _ _ _ _ _ Hk) as [[-> ->]|[_ Hx]].
      + eexists. split; [by apply list_lookup_middle|]. unfold done_pool. simpl. intros Hd.
        apply Forall_fmap. eapply Forall_impl; [exact Hd|]. by intros ? ->.
      + exists p'. split; [apply Hx|done].
    - rewrite E1 in Hk. eauto.
  Qed.

  Lemma step_joined order s s' : any_step code s s' -> joined order s -> joined order s'.
  Proof.
    intros H (dn & Hm & Hd).
    assert (Hd' : forall k p, k ∈ dn -> s_pools s' !! k = Some p -> done_pool p).
    { intros k p' Hk Hp. destruct (done_back _ _ H _ _ Hp) as (p & Hp' & Hx). eauto. }
    destruct (step_main _ _ H) as [E _ _|pre q st ws post ks _ _ E1 E2 _
      |pre q st ws post ks _ _ E1 E2 _|k p ks E0 E3 Hdp E1 E2 _].
    - exists dn. by rewrite E.
    - exists dn. rewrite E2. by rewrite E1 in Hm.
    - exists dn. rewrite E2. by rewrite E1 in Hm.
    - exists (dn ++ [k]). rewrite E2. rewrite E1 in Hm. rewrite <- app_assoc. split; [done|].
      intros j pj Hj Hpj. apply elem_of_app in Hj as [Hj|Hj%elem_of_list_singleton]; [eauto|].
      subst j. rewrite E0, E3 in Hpj. by simplify_eq.
  Qed.
  Lemma reaches_joined order s s' : reaches code s s' -> joined order s -> joined order s'.
  Proof. induction 1; eauto using step_joined. Qed.

  (** *** Joining in order: no enqueue is refused *)
  Definition in_order (s : sys) : Prop :=
    exists k n,
      (match s_main s with
       | MJoin ks => ks = seq k n /\ forall j p, 0 < j -> k <= j -> s_pools s !! j = Some p -> p_stop p = false
       | MNotify k' ks | MWait k' ks => k' = k /\ ks = seq (S k) n /\
           forall j p, 0 < j -> k < j -> s_pools s !! j = Some p -> p_stop p = false
       end) /\
      (forall j p, j < k -> s_pools s !! j = Some p -> done_pool p) /\
      s_refused s = [].

  Lemma stop_back s s' k p' : Forall2 evolves (s_pools s) (s_pools s') -> s_pools s' !! k = Some p' ->
    exists p, s_pools s !! k = Some p /\ p_stop p' = p_stop p.
  Proof. intros H2 Hk. destruct (Forall2_lookup_r _ _ _ _ _ H2 Hk) as (p & Hp & (_ & Hd & _)). eauto. Qed.

  Lemma step_in_order s s' : any_step code s s' -> in_order s -> in_order s'.
  Proof.
    intros H (k & n & Hm & Hd & Hr).
    assert (Hd' : forall j p, j < k -> s_pools s' !! j = Some p -> done_pool p).
    { intros j p' Hj Hp. destruct (done_back _ _ H _ _ Hp) as (p & Hp' & Hx). eauto. }
    destruct (step_main _ _ H) as [E H2 Hf|pre q st ws post ks E3 E4 E1 E2 E5
      |pre q st ws post ks E3 E4 E1 E2 E5|k0 p ks E0 E3 Hdp E1 E2 E5].
    - exists k, n. rewrite E. split; [|split; [done|]].
      + destruct (s_main s) as [ks|k' ks|k' ks].
        * destruct Hm as [-> Hm]. split; [done|]. intros j p' H1 H3 H4.
          destruct (stop_back _ _ _ _ H2 H4) as (p & Hp & ->). eauto.
        * destruct Hm as (-> & -> & Hm). split_and!; [done..|]. intros j p' H1 H3 H4.
          destruct (stop_back _ _ _ _ H2 H4) as (p & Hp & ->). eauto.
        * destruct Hm as (-> & -> & Hm). split_and!; [done..|]. intros j p' H1 H3 H4.
          destruct (stop_back _ _ _ _ H2 H4) as (p & Hp & ->). eauto.
      + destruct Hf as [->|(j & p & p' & w & Hj & Hw & Hne & Hj' & Hst)]; [done|exfalso].
        assert (k <= j).
        { destruct (decide (k <= j)); [done|]. pose proof (Hd j p ltac:(lia) Hj) as Hdd.
          unfold done_pool in Hdd. rewrite Forall_forall in Hdd. naive_solver. }
        assert (p_stop p' = false); [|congruence].
        destruct (s_main s) as [ks|k' ks|k' ks]; [destruct Hm as [_ Hm]|destruct Hm as (_ & _ & Hm)..];
          (eapply Hm; [| |exact Hj']; lia).
    - rewrite E1 in Hm. destruct Hm as [Hk Hm]. destruct n as [|n]; simpl in Hk; [done|].
      injection Hk as Hk1 Hk2. exists k, n. rewrite E2, E5. split_and!; auto.
      intros j p' H1 H3 H4. rewrite E4 in H4. destruct (lookup_mid _ _ _ _ _ H4) as [[-> _]|[_ Hx]]; [lia|].
      apply (Hm j); [done|lia|]. rewrite E3. apply Hx.
    - rewrite E1 in Hm. destruct Hm as (Hk & -> & Hm). exists k, n. rewrite E2, E5. split_and!; auto.
      intros j p' H1 H3 H4. rewrite E4 in H4. destruct (lookup_mid _ _ _ _ _ H4) as [[-> _]|[_ Hx]]; [lia|].
      apply (Hm j); [done|lia|]. rewrite E3. apply Hx.
    - rewrite E1 in Hm. destruct Hm as (-> & -> & Hm). exists (S k), n. rewrite E2, E5, E0 in *. split_and!; auto.
      intros j p' Hj Hp'. destruct (decide (j = k)) as [->|]; [by simplify_eq|]. apply (Hd j); [lia|done].
  Qed.
  Lemma reaches_in_order s s' : reaches code s s' -> in_order s -> in_order s'.
  Proof. induction 1; eauto using step_in_order. Qed.

  (** ** Sleepers *)
  (** A worker of a stopped pool sleeps only if notify_all is about to be called; the
      main thread only waits for stopped pools. *)
  Definition sleepers (s : sys) : Prop :=
    (forall k p, s_pools s !! k = Some p -> p_stop p = true -> WSleep ∈ p_workers p ->
       exists ks, s_main s = MNotify k ks) /\
    match s_main s with
    | MJoin _ => True
    | MNotify k _ | MWait k _ => forall p, s_pools s !! k = Some p -> p_stop p = true
    end.

  Lemma step_sleepers s s' : any_step code s s' -> sleepers s -> sleepers s'.
  Proof.
    intros H [Hs Hm].
    destruct (step_main _ _ H) as [E H2 _|pre q st ws post ks E3 E4 E1 E2 E5
      |pre q st ws post ks E3 E4 E1 E2 E5|k0 p ks E0 E3 Hdp E1 E2 E5].
    - split.
      + intros k p' Hp' H3 H4. destruct (Forall2_lookup_r _ _ _ _ _ H2 Hp') as (p & Hp & (_ & Hd & _ & Hsl)).
        rewrite E. apply (Hs k p Hp); [congruence|]. apply Hsl; [congruence|done].
      + rewrite E. destruct (s_main s) as [ks|k ks|k ks]; [done|..]; intros p' Hp';
          destruct (stop_back _ _ _ _ H2 Hp') as (p & Hp & ->); by apply Hm.
    - split.
      + intros k p' Hp' H3 H4. rewrite E4 in Hp'. rewrite E2.
        destruct (lookup_mid _ _ _ _ _ Hp') as [[-> _]|[_ Hx]]; [by eexists|].
        destruct (Hs k p') as [ks' Hks]; [rewrite E3; apply Hx|done..|]. congruence.
      + rewrite E2, E4. intros p' Hp'. rewrite list_lookup_middle in Hp' by done. by simplify_eq.
    - split.
      + intros k p' Hp' H3 H4. rewrite E4 in Hp'. rewrite E2.
        destruct (lookup_mid _ _ _ _ _ Hp') as [[-> ->]|[Hne Hx]].
        * exfalso. simpl in H4. apply elem_of_list_fmap in H4 as ([] & ? & _); done.
        * destruct (Hs k p') as [ks' Hks]; [rewrite E3; apply Hx|done..|]. congruence.
      + rewrite E2, E4. intros p' Hp'. rewrite list_lookup_middle in Hp' by done. simplify_eq. simpl.
        rewrite E1, E3 in Hm. apply (Hm (Pool q st ws)). by apply list_lookup_middle.
    - split; [|by rewrite E2].
      intros k p' Hp' H3 H4. rewrite E0 in Hp'. destruct (Hs k p' Hp' H3 H4) as [ks' Hks]. congruence.
  Qed.
  Lemma reaches_sleepers s s' : reaches code s s' -> sleepers s -> sleepers s'.
  Proof. induction 1; eauto using step_sleepers. Qed.

  (** ** Progress *)
  Local Instance sleep_dec (w : wk) : Decision (w = WSleep).
  Proof. destruct w; try (by right); by left. Defined.
  Local Instance exit_dec (w : wk) : Decision (w = WExit).
  Proof. destruct w; try (by right); by left. Defined.
  (** A worker that neither sleeps nor has exited can take a step. *)
  Lemma worker_progress s k p w : all_fit 0 (s_pools s) -> s_pools s !! k = Some p -> w ∈ p_workers p ->
    w <> WSleep -> w <> WExit -> exists s', step s s'.
  Proof.
    intros F Hk Hw Hs He. apply elem_of_list_split_length in Hk as (pre & post & E & _).
    destruct s as [ps m out refu]. simpl in *. subst ps. destruct p as [q st ws]. simpl in Hw.
    apply elem_of_list_split in Hw as (w1 & w2 & ->).
    apply all_fit_app in F as [_ F]. simpl in F. destruct F as [[_ F] _]. simpl in F.
    apply Forall_app in F as [_ F]. apply Forall_cons in F as [F _].
    destruct w as [| |[|[r|t] acts]|acts|]; try done.
    - destruct q as [|t q]; [destruct st|]; eexists; apply st_worker; constructor.
    - eexists. apply st_worker. constructor.
    - eexists. apply st_worker. constructor.
    - simpl in F. apply fits_cons in F as [F _]. destruct post as [|[q' [] ws'] post]; [done|..].
      + eexists. apply st_refuse.
      + eexists. apply st_enq.
    - simpl in F. destruct F as [_ F]. destruct post as [|[q' st' ws'] post]; simpl in F; [lia|].
      destruct (decide (Exists (fun w => w = WSleep) ws')) as [Hx|Hx].
      + apply Exists_exists in Hx as (w & Hw & ->). apply elem_of_list_split in Hw as (w1' & w2' & ->).
        eexists. apply st_notify.
      + eexists. apply st_notify_none. intros Hin. apply Hx. apply Exists_exists. eauto.
  Qed.

  (** Something can move until everything is joined. *)
  Lemma progress s : all_fit 0 (s_pools s) -> sleepers s ->
    (forall k ks, s_main s = MJoin (k :: ks) \/ s_main s = MNotify k ks \/ s_main s = MWait k ks -> k < length (s_pools s)) ->
    s_main s = MJoin [] \/ exists s', step s s'.
  Proof.
    intros F [Hs Hm] Hk. destruct s as [ps m out refu]. simpl in *.
    assert (Hmid : forall k, k < length ps -> exists pre q st ws post, ps = pre ++ Pool q st ws :: post /\ length pre = k).
    { intros k Hlt. destruct (lookup_lt_is_Some_2 _ _ Hlt) as [[q st ws] Hp].
      apply elem_of_list_split_length in Hp as (pre & post & E & Hl). rewrite E. eauto 10. }
    destruct m as [[|k ks]|k ks|k ks]; [by left|right..].
    - destruct (Hmid k) as (pre & q & st & ws & post & -> & <-); [eapply Hk; eauto|].
      eexists. apply st_stop.
    - destruct (Hmid k) as (pre & q & st & ws & post & -> & <-); [eapply Hk; eauto|].
      eexists. apply st_notify_all.
    - destruct (Hmid k) as (pre & q & st & ws & post & -> & <-); [eapply Hk; eauto|].
      assert (Hl : (pre ++ Pool q st ws :: post) !! length pre = Some (Pool q st ws)) by by apply list_lookup_middle.
      destruct (decide (Forall (fun w => w = WExit) ws)) as [Hd|Hd].
      + eexists. by apply st_joined.
      + apply not_Forall_Exists in Hd; [|apply _].
        apply Exists_exists in Hd as (w & Hw & Hne). simpl in Hne.
        assert (Hsl : w <> WSleep).
        { intros ->. destruct (Hs _ _ Hl (Hm _ Hl) Hw) as [ks' ?]. done. }
        eapply (worker_progress (Sys (pre ++ Pool q st ws :: post) (MWait (length pre) ks) out refu));
          [exact F|exact Hl|exact Hw|done|done].
    Qed.

  (** ** No wake-up is lost *)
  Definition nonempty_pools (s : sys) : Prop := Forall (fun p => p_workers p <> []) (s_pools s).
  Lemma mid_nonempty {A} (a : list A) x b : a ++ x :: b <> [].
  Proof. by destruct a. Qed.
  Lemma step_nonempty s s' : any_step code s s' -> nonempty_pools s -> nonempty_pools s'.
  Proof.
    unfold nonempty_pools. intros H F. apply Forall_lookup. intros k p' Hk.
    assert (HL : exists p, s_pools s !! k = Some p /\ length (p_workers p') = length (p_workers p)).
    { destruct (step_main _ _ H) as [_ H2 _|pre q st ws post ks E1 E2 _ _ _
        |pre q st ws post ks E1 E2 _ _ _|k0 p ks E1 _ _ _ _ _].
      - destruct (Forall2_lookup_r _ _ _ _ _ H2 Hk) as (p & Hp & (_ & _ & Hd & _)). eauto.
      - rewrite E2 in Hk. rewrite E1. destruct (lookup_mid _ _ _ _ _ Hk) as [[-> ->]|[_ Hx]]; [|by eauto].
        eexists. split; [by apply list_lookup_middle|]. done.
      - rewrite E2 in Hk. rewrite E1. destruct (lookup_mid _ _ _ _ _ Hk) as [[-> ->]|[_ Hx]]; [|by eauto].
        eexists. split; [by apply list_lookup_middle|]. simpl. by rewrite fmap_length.
      - rewrite E1 in Hk. eauto. }
    destruct HL as (p & Hp & HL). pose proof (Forall_lookup_1 _ _ _ _ F Hp) as Hne. simpl in Hne.
    intros E. rewrite E in HL. by destruct (p_workers p).
  Qed.
  Lemma reaches_nonempty s s' : reaches code s s' -> nonempty_pools s -> nonempty_pools s'.
  Proof. induction 1; eauto using step_nonempty. Qed.

  Definition notifies (p : pool) : Prop := exists acts, WNotify acts ∈ p_workers p.
  Definition awake1 (n : Prop) (p : pool) : Prop :=
    p_queue p = [] \/ (exists w, w ∈ p_workers p /\ w <> WSleep) \/ n.
  Fixpoint awake (n : Prop) (ps : list pool) : Prop :=
    match ps with [] => True | p :: ps' => awake1 n p /\ awake (notifies p) ps' end.
  Fixpoint last_notifies (n : Prop) (ps : list pool) : Prop :=
    match ps with [] => n | p :: ps' => last_notifies (notifies p) ps' end.
  Lemma awake_app n a b : awake n (a ++ b) <-> awake n a /\ awake (last_notifies n a) b.
  Proof. revert n. induction a as [|p a IH]; intros n; simpl; [tauto|]. rewrite IH. tauto. Qed.
  Lemma awake_mono (n n' : Prop) ps : (n -> n') -> awake n ps -> awake n' ps.
  Proof. intros Hn. destruct ps; simpl; [done|]. unfold awake1. tauto. Qed.
  Lemma awake1_worker n q st w1 w w2 : w <> WSleep -> awake1 n (Pool q st (w1 ++ w :: w2)).
  Proof. intros Hw. right. left. exists w. simpl. split; [|done]. apply elem_of_app. right. left. Qed.
  Lemma notifies_worker q st q' st' w1 w w' w2 : (forall a, w = WNotify a -> exists a', w' = WNotify a') ->
    notifies (Pool q st (w1 ++ w :: w2)) -> notifies (Pool q' st' (w1 ++ w' :: w2)).
  Proof.
    intros Hw (a & Ha). simpl in Ha. unfold notifies. simpl. rewrite elem_of_app, elem_of_cons in Ha.
    destruct Ha as [Ha|[Ha|Ha]].
    - exists a. apply elem_of_app. by left.
    - destruct (Hw a) as [a' ->]; [done|]. exists a'. apply elem_of_app. right. left.
    - exists a. apply elem_of_app. right. by right.
  Qed.

  Lemma step_awake s s' : any_step code s s' -> nonempty_pools s ->
    awake False (s_pools s) -> awake False (s_pools s').
  Proof.
    intros [H|H] N A.
    - destruct H; simpl in *; apply awake_app in A as [A1 A2]; apply awake_app; (split; [done|]);
        simpl in *.
      + destruct A2 as [A2 A3]. split.
        * destruct H; try (by apply awake1_worker); by left.
        * eapply awake_mono; [|exact A3]. apply notifies_worker. by destruct H.
      + destruct A2 as (A2 & A3 & A4). split_and!; [by apply awake1_worker| |exact A4].
        right. right. exists acts. simpl. apply elem_of_app. right. left.
      + destruct A2 as (A2 & A3 & A4). split_and!; [by apply awake1_worker| |exact A4].
        destruct A3 as [A3|[A3|A3]]; [by left|right; by left|]. right. right.
        eapply notifies_worker; [|exact A3]. done.
      + destruct A2 as (A2 & A3 & A4). split_and!; [by apply awake1_worker|by apply awake1_worker|].
        eapply awake_mono; [|exact A4]. by apply notifies_worker.
      + destruct A2 as (A2 & A3 & A4). split_and!; [by apply awake1_worker| |exact A4].
        unfold nonempty_pools in N. simpl in N. rewrite Forall_app, !Forall_cons in N.
        destruct N as (_ & _ & N & _). simpl in N. destruct ws' as [|w ws']; [done|].
        right. left. exists w. simpl. split; [left|]. intros ->. apply H. left.
      + done.
      + destruct A2 as [A2 A3]. split.
        * destruct A2 as [A2|[(w & Hw & Hne)|A2]]; [by left| |by right; right].
          right. left. exists (wake w). simpl. split; [by apply elem_of_list_fmap_1|]. by destruct w.
        * eapply awake_mono; [|exact A3]. intros (a & Ha). exists a. simpl in *.
          apply (elem_of_list_fmap_1 wake _ _ Ha).
      + done.
    - destruct H; simpl in *; apply awake_app in A as [A1 A2]; apply awake_app; (split; [done|]); simpl in *.
      destruct A2 as [A2 A3]. split; [by apply awake1_worker|].
      eapply awake_mono; [|exact A3]. by apply notifies_worker.
  Qed.
  Lemma reaches_awake s s' : reaches code s s' -> nonempty_pools s ->
    awake False (s_pools s) -> awake False (s_pools s').
  Proof. induction 1; eauto using step_awake, step_nonempty. Qed.

  (** If a task is queued, some worker can take a step. *)
  Lemma queued_progress s k p : all_fit 0 (s_pools s) -> exits s -> awake False (s_pools s) ->
    s_pools s !! k = Some p -> p_queue p <> [] -> exists s', step s s'.
  Proof.
    intros F E A Hk Hq. pose proof Hk as Hk0.
    apply elem_of_list_split_length in Hk as (pre & post & Eq & Hl).
    unfold exits in E. rewrite Eq in A, E. apply awake_app in A as [A1 [A2 _]].
    apply Forall_app in E as [_ E]. apply Forall_cons in E as [E _].
    destruct A2 as [A2|[(w & Hw & Hne)|A2]]; [done| |].
    - eapply (worker_progress s k p w); [done|done|done|done|]. intros ->.
      by destruct (E Hw) as [_ ?].
    - destruct (exists_last (l := pre)) as (pre' & p' & ->); [by intros ->|].
      assert (HL : last_notifies False (pre' ++ [p']) = notifies p').
      { clear. generalize False. induction pre' as [|x l IH]; intros n; simpl; [done|apply IH]. }
      rewrite HL in A2. destruct A2 as [a Ha].
      eapply (worker_progress s (length pre') p' (WNotify a)); [done| |done|done|done].
      rewrite Eq, <- app_assoc. by apply list_lookup_middle.
  Qed.

  (** ** Termination *)
  Fixpoint cost (d : nat) (acts : list act) : nat :=
    sum_list_with (fun a => match a with
      | AEmit _ => 1
      | AEnq t => match d with 0 => 0 | S d' => 5 + cost d' (code t) end
      end) acts.
  Local Arguments cost : simpl never.
  Lemma cost_nil d : cost d [] = 0.
  Proof. by destruct d. Qed.
  Lemma cost_emit d r a : cost d (AEmit r :: a) = S (cost d a).
  Proof. by destruct d. Qed.
  Lemma cost_enq d t a : cost (S d) (AEnq t :: a) = 5 + cost d (code t) + cost (S d) a.
  Proof. unfold cost. simpl. lia. Qed.
  Local Opaque cost.
  Definition wk_cost (d : nat) (w : wk) : nat :=
    match w with WCheck => 1 | WSleep | WExit => 0 | WRun a => 2 + cost d a | WNotify a => 4 + cost d a end.
  Definition pool_cost (d : nat) (p : pool) : nat :=
    sum_list_with (fun t => 2 + cost d (code t)) (p_queue p) + sum_list_with (wk_cost d) (p_workers p).
  Fixpoint costs (n : nat) (ps : list pool) : nat :=
    match ps with [] => 0 | p :: ps' => pool_cost (n + length ps') p + costs n ps' end.
  Definition n_workers (ps : list pool) : nat := sum_list_with (fun p => length (p_workers p)) ps.
  Definition main_cost (n : nat) (m : mpc) : nat :=
    match m with
    | MJoin ks => (3 + n) * length ks
    | MNotify _ ks => 2 + n + (3 + n) * length ks
    | MWait _ ks => 1 + (3 + n) * length ks
    end.
  Definition measure (s : sys) : nat := costs 0 (s_pools s) + main_cost (n_workers (s_pools s)) (s_main s).

  Lemma costs_app n a b : costs n (a ++ b) = costs (n + length b) a + costs n b.
  Proof.
    induction a as [|p a IH]; simpl; [done|]. rewrite IH, app_length.
    replace (n + (length a + length b)) with (n + length b + length a) by lia. lia.
  Qed.
  Lemma sum_app {A} (f : A -> nat) l k : sum_list_with f (l ++ k) = sum_list_with f l + sum_list_with f k.
  Proof. induction l; simpl; lia. Qed.
  Lemma wake_cost d ws : sum_list_with (wk_cost d) (wake <$> ws) <= sum_list_with (wk_cost d) ws + length ws.
  Proof. induction ws as [|w ws IH]; csimpl; [lia|]. destruct w; simpl in *; lia. Qed.

  Lemma step_measure s s' : step s s' -> all_fit 0 (s_pools s) -> measure s' < measure s.
  Proof.
    intros H F. unfold measure.
    assert (HN : n_workers (s_pools s') = n_workers (s_pools s)).
    { unfold n_workers. destruct H; simpl; rewrite ?sum_app; simpl; rewrite ?app_length, ?fmap_length; simpl; lia. }
    rewrite HN. set (N := n_workers (s_pools s)) in *.
    assert (HW : forall p, p ∈ s_pools s -> length (p_workers p) <= N).
    { intros p Hp. subst N. unfold n_workers. clear -Hp. induction Hp; simpl; lia. }
    clearbody N. clear HN. destruct H; simpl in *; rewrite ?costs_app; simpl; unfold pool_cost; simpl;
      rewrite ?sum_app; simpl.
    - destruct H; simpl; rewrite ?cost_nil, ?cost_emit; lia.
    - rewrite ?cost_enq. lia.
    - rewrite ?cost_enq. lia.
    - lia.
    - lia.
    - lia.
    - pose proof (wake_cost (length post) ws). specialize (HW (Pool q st ws)). simpl in HW.
      assert (length ws <= N) by (apply HW; apply elem_of_app; right; left). lia.
    - lia.
  Qed.

  Lemma steps_bounded n s s' : nsteps step n s s' -> all_fit 0 (s_pools s) -> n <= measure s.
  Proof.
    revert s. induction n as [|n IH]; intros s H F; inversion H as [|? ? s1 ? H1 H2]; subst; [lia|].
    pose proof (step_measure _ _ H1 F). destruct (step_total s s1 (or_introl H1) F) as [_ F1].
    specialize (IH s1 H2 F1). lia.
  Qed.

  (** ** The start *)
  Lemma start_fit bodies sizes order : Forall (fits (length sizes)) bodies ->
    all_fit 0 (s_pools (start bodies sizes order)).
  Proof.
    intros H. simpl. rewrite fmap_length. split.
    - split; simpl; [done|]. by apply Forall_fmap.
    - clear. induction sizes as [|n sizes IH]; simpl; [done|]. split; [|done]. split; simpl; [done|].
      apply Forall_forall. intros w Hw. apply elem_of_replicate in Hw as [-> _]. done.
  Qed.
  Lemma start_total bodies sizes order :
    total (start bodies sizes order) = bodies ≫= delivers (length sizes).
  Proof.
    unfold total. simpl. rewrite fmap_length.
    assert (E : pend 0 (new_pool <$> sizes) = []).
    { induction sizes as [|n sizes IH]; csimpl; [done|]. rewrite IH. unfold pool_out. simpl.
      rewrite app_nil_r. clear. induction n; csimpl; done. }
    rewrite E. unfold pool_out. simpl. rewrite !app_nil_r.
    induction bodies as [|b bodies IH]; csimpl; [done|]. by rewrite IH.
  Qed.
  Lemma start_exits bodies sizes order : exits (start bodies sizes order).
  Proof.
    unfold exits. simpl. constructor.
    - intros _. done.
    - apply Forall_fmap, Forall_forall. intros n _ Hw. simpl in Hw. by apply elem_of_replicate in Hw as [? _].
  Qed.
  Lemma start_joined bodies sizes order : joined order (start bodies sizes order).
  Proof. exists []. split; [done|]. by intros k p ?%elem_of_nil. Qed.
  Lemma start_in_order bodies sizes n : in_order (start bodies sizes (seq 0 n)).
  Proof.
    exists 0, n. simpl. split_and!; [done| |intros; lia|done].
    intros [|j] p Hj _ Hp; [lia|]. simpl in Hp. apply list_lookup_fmap_inv in Hp as (m & -> & _). done.
  Qed.
  Lemma start_sleepers bodies sizes order : sleepers (start bodies sizes order).
  Proof.
    split; [|done]. intros [|k] p Hp Hst Hw; simpl in Hp.
    - simplify_eq. simpl in Hw. by apply elem_of_list_fmap in Hw as (? & ? & _).
    - apply list_lookup_fmap_inv in Hp as (m & -> & _). done.
  Qed.
  Lemma start_nonempty bodies sizes order : bodies <> [] -> Forall (fun n => 0 < n) sizes ->
    nonempty_pools (start bodies sizes order).
  Proof.
    intros Hb Hn. constructor; simpl.
    - intros E. by apply fmap_nil_inv in E.
    - apply Forall_fmap. eapply Forall_impl; [exact Hn|]. intros [|n] ?; [lia|done].
  Qed.
  Lemma start_awake bodies sizes order : awake False (s_pools (start bodies sizes order)).
  Proof.
    simpl. split; [by left|]. generalize (notifies (threads bodies)).
    induction sizes as [|n sizes IH]; intros P; simpl; [done|]. split; [by left|]. apply IH.
  Qed.

  (** The main thread only joins pools of the list it was given. *)
  Definition in_list (order : list nat) (m : mpc) : Prop :=
    match m with MJoin ks => ks ⊆ order | MNotify k ks | MWait k ks => k :: ks ⊆ order end.
  Lemma joined_in_list order s : joined order s -> in_list order (s_main s).
  Proof.
    intros (dn & Hm & _). destruct (s_main s); simpl; rewrite Hm; intros x Hx; apply elem_of_app; by right.
  Qed.
  Lemma step_length s s' : any_step code s s' -> length (s_pools s') = length (s_pools s).
  Proof. intros [H|H]; destruct H; simpl; rewrite ?app_length; simpl; lia. Qed.
  Lemma reaches_length s s' : reaches code s s' -> length (s_pools s') = length (s_pools s).
  Proof. induction 1 as [|? ? ? H _ IH]; [done|]. by rewrite IH, (step_length _ _ H). Qed.

  (** Finished pools owe nothing. *)
  Lemma done_out d p : p_workers p <> [] -> exit_ok p -> done_pool p -> pool_out d p = [].
  Proof.
    intros Hne He Hd. unfold pool_out. destruct p as [q st ws]. simpl in *.
    destruct ws as [|w ws]; [done|]. unfold done_pool in Hd. simpl in Hd.
    destruct He as [_ He]; [apply Forall_cons in Hd as [-> _]; left|]. simpl in He. subst q.
    change ((w :: ws) ≫= wk_out d = []).
    clear Hne. revert Hd. generalize (w :: ws). clear. induction 1 as [|w' ws' ? ? IH]; csimpl; [done|].
    subst. by rewrite IH.
  Qed.
  Lemma all_done_out n ps : Forall (fun p => p_workers p <> []) ps -> Forall exit_ok ps ->
    Forall done_pool ps -> pend n ps = [].
  Proof.
    intros H1 H2 H3. induction ps as [|p ps IH]; simpl; [done|].
    apply Forall_cons in H1 as [? ?], H2 as [? ?], H3 as [? ?]. rewrite done_out, IH; done.
  Qed.

  (** ** Stopped pools accept nothing *)
  Lemma step_stopped s s' k p : any_step code s s' -> s_pools s !! k = Some p -> p_stop p = true ->
    exists p', s_pools s' !! k = Some p' /\ p_stop p' = true /\ p_queue p' `suffix_of` p_queue p.
  Proof.
    assert (mid2 : forall (pre : list pool) x y post j z, (pre ++ x :: y :: post) !! j = Some z ->
      (j = length pre /\ z = x) \/ (j = S (length pre) /\ z = y) \/
      forall x' y', (pre ++ x' :: y' :: post) !! j = Some z).
    { intros pre x y post j z Hj. destruct (lookup_mid _ _ _ _ _ Hj) as [[? ?]|[Hne Hx]]; [by left|right].
      destruct (decide (j = S (length pre))) as [->|Hne2].
      - left. split; [done|]. rewrite lookup_app_r in Hj by lia.
        replace (S (length pre) - length pre) with 1 in Hj by lia. by simplify_eq/=.
      - right. intros x' y'. apply lookup_app_Some in Hj as [Hj|[Hj1 Hj2]].
        + by apply lookup_app_l_Some.
        + rewrite lookup_app_r by done. destruct (j - length pre) as [|[|n]] eqn:E; [lia|lia|done]. }
    assert (mid2l : forall (pre : list pool) x post j, j = length pre -> (pre ++ x :: post) !! j = Some x).
    { intros. subst. by apply list_lookup_middle. }
    assert (mid2r : forall (pre : list pool) x y post j, j = S (length pre) -> (pre ++ x :: y :: post) !! j = Some y).
    { intros. subst. rewrite lookup_app_r by lia. by replace (S (length pre) - length pre) with 1 by lia. }
    intros [H|H] Hk Hst.
    - destruct H; simpl in *.
      + destruct (lookup_mid _ _ _ _ _ Hk) as [[-> ->]|[_ Hx]]; [|by eauto].
        eexists. split; [by apply mid2l|]. simpl in *. split; [done|].
        destruct H; simpl; try done. by apply suffix_cons_r.
      + destruct (mid2 _ _ _ _ _ _ Hk) as [[-> ->]|[[-> ->]|Hx]]; [| |by eauto].
        * eexists. split; [by apply mid2l|]. done.
        * done.
      + destruct (mid2 _ _ _ _ _ _ Hk) as [[-> ->]|[[-> ->]|Hx]]; [| |by eauto].
        * eexists. split; [by apply mid2l|]. done.
        * eexists. split; [by apply mid2r|]. done.
      + destruct (mid2 _ _ _ _ _ _ Hk) as [[-> ->]|[[-> ->]|Hx]]; [| |by eauto].
        * eexists. split; [by apply mid2l|]. done.
        * eexists. split; [by apply mid2r|]. done.
      + destruct (mid2 _ _ _ _ _ _ Hk) as [[-> ->]|[[-> ->]|Hx]]; [| |by eauto].
        * eexists. split; [by apply mid2l|]. done.
        * eexists. split; [by apply mid2r|]. done.
      + destruct (lookup_mid _ _ _ _ _ Hk) as [[-> ->]|[_ Hx]]; [|by eauto].
        eexists. split; [by apply mid2l|]. done.
      + destruct (lookup_mid _ _ _ _ _ Hk) as [[-> ->]|[_ Hx]]; [|by eauto].
        eexists. split; [by apply mid2l|]. done.
      + eauto.
    - destruct H; simpl in *. destruct (lookup_mid _ _ _ _ _ Hk) as [[-> ->]|[_ Hx]]; [|by eauto].
      eexists. split; [by apply mid2l|]. done.
  Qed.

  (** ** Executions from the start *)
  Record reach_inv (order : list nat) (s : sys) : Prop := {
    ri_fit : all_fit 0 (s_pools s);
    ri_exits : exits s;
    ri_joined : joined order s;
    ri_sleepers : sleepers s;
    ri_nonempty : nonempty_pools s;
    ri_awake : awake False (s_pools s) }.
  Lemma reach_inv_start bodies sizes order :
    bodies <> [] -> Forall (fun n => 0 < n) sizes -> Forall (fits (length sizes)) bodies ->
    reach_inv order (start bodies sizes order).
  Proof.
    split; [by apply start_fit|apply start_exits|apply start_joined|apply start_sleepers
      |by apply start_nonempty|apply start_awake].
  Qed.
  Lemma reach_inv_reaches order s s' : reaches code s s' -> reach_inv order s -> reach_inv order s'.
  Proof.
    intros H [I1 I2 I3 I4 I5 I6].
    split; [by apply (reaches_total _ _ H)|by eapply reaches_exits|by eapply reaches_joined
      |by eapply reaches_sleepers|by eapply reaches_nonempty|by eapply reaches_awake].
  Qed.
  Lemma inv_progress order s : reach_inv order s -> Forall (fun k => k < length (s_pools s)) order ->
    s_main s = MJoin [] \/ exists s', step s s'.
  Proof.
    intros I Ho. apply progress; try apply I. intros k ks Hk.
    pose proof (joined_in_list _ _ (ri_joined _ _ I)) as Hl. rewrite Forall_forall in Ho. apply Ho.
    destruct Hk as [E|[E|E]]; rewrite E in Hl; simpl in Hl; apply Hl; left.
  Qed.
  Lemma inv_completes order s : reach_inv order s -> Forall (fun k => k < length (s_pools s)) order ->
    exists s', reaches code s s' /\ s_main s' = MJoin [].
  Proof.
    remember (measure s) as n eqn:En. revert s En. induction (lt_wf n) as [n _ IH]. intros s -> I Ho.
    destruct (inv_progress _ _ I Ho) as [Hd|[s1 H1]]; [by exists s|].
    assert (R1 : reaches code s s1) by (apply rtc_once; by left).
    destruct (IH (measure s1)) with (s := s1) as (s2 & R2 & Hd); [|done| | |].
    - apply step_measure; [done|apply I].
    - by eapply reach_inv_reaches.
    - by rewrite (reaches_length _ _ R1).
    - exists s2. split; [|done]. by etransitivity.
  Qed.
  Lemma inv_finished order s : reach_inv order s -> s_main s = MJoin [] ->
    (forall k, k < length (s_pools s) -> k ∈ order) -> Forall done_pool (s_pools s) /\ pend 0 (s_pools s) = [].
  Proof.
    intros I Hm Ho. assert (D : Forall done_pool (s_pools s)).
    { destruct (ri_joined _ _ I) as (dn & Hdn & Hd). rewrite Hm, app_nil_r in Hdn. subst dn.
      apply Forall_lookup. intros k p Hp. eapply Hd; [|exact Hp]. apply Ho. by eapply lookup_lt_Some. }
    split; [done|]. apply all_done_out; [apply I|apply I|done].
  Qed.
End proofs.
