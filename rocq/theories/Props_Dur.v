(** Power failures and the vectors on disk (C116, C117). *)
From stdpp Require Import prelude gmap.
From Coq Require Import ZArith NArith Lia.
From Verif Require Import Base GraphModel AllocModel EncModel EncSpec EncProofs EncStash StoreModel StoreSpec
  StoreProofs StoreTheorems VecModel VecSpec VecProofs LifeModel LifeSpec LifeProofs TethysLifeModel TethysLifeSpec
  TethysLifeProofs DurModel DurSpec Props_Enc Props_Store Props_Vec Props_TethysLife.
Local Open Scope nat_scope.

(** ** C116: committed vectors and power failures. *)
Lemma dv_call_vec sz sched s d c : rep sz s (dv_vec d) -> sync_call sz s c -> (dv_call sz sched d c).2 <> UB ->
  dv_vec (dv_call sz sched d c).1 = (vec_call sz (dv_vec d) c).1.
Proof.
  intros R Hc Hu. destruct c as [al val|val|n| |flag|i|i]; try done.
  - cbn [dv_call vec_call fst]. unfold dv_commit. destruct (v_committed (dv_vec d)) eqn:E.
    + unfold vec_commit. rewrite E. destruct (dv_vec d); simpl in *. by subst.
    + by destruct sched.
  - cbn [dv_call vec_call fst] in *. unfold dv_set_direct, vec_set_direct in *. case_bool_decide; [done|].
    destruct sched; [done|]. done.
Qed.
Lemma dv_call_past sz sched s d c : rep sz s (dv_vec d) -> sync_call sz s c ->
  let d' := (dv_call sz sched d c).1 in
  (dv_past d' = [v_file (dv_vec d)] /\ c = VCommit /\ sched = false /\ iv_done s = false) \/
  (dv_past d' = dv_past d /\ (c = VCommit -> sched = true \/ iv_done s = true)) \/
  (dv_past d' = dv_past d ++ [v_file (vec_call sz (dv_vec d) c).1] /\ c <> VCommit).
Proof.
  intros R Hc. pose proof (rp_pending _ _ _ R) as HP. pose proof (rp_done _ _ _ R) as HD.
  destruct c as [al val|val|n| |flag|i|i]; try done; try (right; right; done).
  - cbn [dv_call fst]. unfold dv_commit. rewrite HD. destruct (iv_done s); [right; left; auto|]. destruct sched; cbn [dv_past].
    + right; left. rewrite HP. cbn [wait_past]. rewrite app_nil_r. auto.
    + left. done.
  - right; left. cbn [dv_call fst]. unfold dv_set_direct. case_bool_decide; [done|]. destruct sched; [|done].
    cbn [dv_past fst]. rewrite HP. cbn [wait_past]. rewrite app_nil_r. done.
Qed.
(** The file of a committed vector does not change. *)
Lemma committed_file sz s v c : 0 < sz -> rep sz s v -> sync_call sz s c -> iv_done s = true ->
  v_file (vec_call sz v c).1 = v_file v /\ iv_done (ideal_call s c) = true.
Proof.
  intros Hsz R Hc Hd. destruct (rep_step sz s v c Hsz R Hc) as [R' _].
  rewrite (rp_file _ _ _ R'), (rp_file _ _ _ R).
  destruct c; cbn [ideal_call sync_call] in *; rewrite ?Hd; done.
Qed.

Record dinv (sz : nat) (sched : bool) (s : ivec) (d : dvec) : Prop := DInv {
  di_rep : rep sz s (dv_vec d);
  di_bytes : forall c k x, c ∈ dv_past d -> c !! k = Some x -> x = 0%N \/ mjoin (iv_vals s) !! k = Some x;
  di_done : sched = false -> iv_done s = true -> forall c, c ∈ dv_past d -> c = v_file (dv_vec d)
}.
Lemma ideal_vals_grow s c : exists l, iv_vals (ideal_call s c) = iv_vals s ++ l.
Proof.
  destruct c; cbn [ideal_call]; repeat case_match; cbn [iv_vals]; first [by eexists | by exists []; rewrite app_nil_r].
Qed.
Lemma ideal_done s c : iv_done (ideal_call s c) = true -> c = VCommit \/ iv_done s = true.
Proof. destruct c; cbn [ideal_call]; repeat case_match; cbn [iv_done]; auto; congruence. Qed.
Lemma rep_bytes sz s v k x : rep sz s v -> v_file v !! k = Some x -> x = 0%N \/ mjoin (iv_vals s) !! k = Some x.
Proof.
  intros R H. rewrite (rp_file _ _ _ R) in H. apply lookup_app_Some in H as [H|[_ H]]; [by right|].
  apply lookup_replicate in H as [-> _]. by left.
Qed.
Lemma dinv_step sz sched s d c : 0 < sz -> dinv sz sched s d -> sync_call sz s c -> (dv_call sz sched d c).2 <> UB ->
  dinv sz sched (ideal_call s c) (dv_call sz sched d c).1.
Proof.
  intros Hsz [R HB HD] Hc Hu. destruct (rep_step sz s _ c Hsz R Hc) as [R' _].
  pose proof (dv_call_vec sz sched s d c R Hc Hu) as EV.
  pose proof (dv_call_past sz sched s d c R Hc) as HP. cbn zeta in HP.
  assert (Hgrow : forall k x, x = 0%N \/ mjoin (iv_vals s) !! k = Some x -> x = 0%N \/ mjoin (iv_vals (ideal_call s c)) !! k = Some x).
  { intros k x [->|Hx]; [by left|]. right. destruct (ideal_vals_grow s c) as [l ->]. rewrite mjoin_app. by apply lookup_app_l_Some. }
  split.
  - by rewrite EV.
  - intros f k x Hf Hx. destruct HP as [(E & _)|[(E & _)|(E & _)]]; rewrite E in Hf.
    + apply elem_of_list_singleton in Hf as ->. apply Hgrow. by apply (rep_bytes sz s (dv_vec d)).
    + apply Hgrow. by apply (HB f).
    + apply elem_of_app in Hf as [Hf|Hf]; [apply Hgrow; by apply (HB f)|]. apply elem_of_list_singleton in Hf as ->.
      by apply (rep_bytes sz _ _ k x R').
  - intros Hs Hd f Hf. rewrite EV. destruct HP as [(E & -> & _)|[(E & Hcm)|(E & Hcm)]]; rewrite E in Hf.
    + apply elem_of_list_singleton in Hf as ->. cbn [vec_call fst]. unfold vec_commit. rewrite (rep_wait _ _ _ R). by destruct (v_committed (dv_vec d)).
    + assert (Hd0 : iv_done s = true).
      { destruct (ideal_done s c Hd) as [Ec|Ed]; [|done]. destruct (Hcm Ec) as [E1|E1]; [congruence|done]. }
      destruct (committed_file sz s (dv_vec d) c Hsz R Hc Hd0) as [-> _]. by apply HD.
    + assert (Hd0 : iv_done s = true).
      { by destruct (ideal_done s c Hd). }
      destruct (committed_file sz s (dv_vec d) c Hsz R Hc Hd0) as [Ef _].
      apply elem_of_app in Hf as [Hf|Hf]; [rewrite Ef; by apply HD|]. by apply elem_of_list_singleton in Hf.
Qed.
Lemma dinv_calls sz sched cs : 0 < sz -> forall s d, dinv sz sched s d -> sync_history sz s cs ->
  UB ∉ (dv_calls sz sched d cs).2 -> dinv sz sched (ideal_calls s cs) (dv_calls sz sched d cs).1.
Proof.
  intros Hsz. induction cs as [|c cs IH]; intros s d HI H Hu; [done|]. destruct H as [Hc H]. cbn [dv_calls fst snd ideal_calls foldl] in *.
  apply not_elem_of_cons in Hu as [Hu1 Hu2]. apply IH; [|done|done]. apply dinv_step; try done.
Qed.
Lemma dinv_open sz sched direct : dinv sz sched (empty_ivec direct) (dv_open sz [] direct).
Proof.
  split; [apply rep_open| |done]. intros c k x Hc Hx. apply elem_of_list_singleton in Hc as ->. done.
Qed.

(** Without a scheduler, the values pushed before a commit that returned survive the power
    failures that come after it. *)
Theorem C116_sync :
  forall sz direct cs f direct',
    0 < sz -> sync_history sz (empty_ivec direct) cs ->
    let s := ideal_calls (empty_ivec direct) cs in
    let r := dv_calls sz false (dv_open sz [] direct) cs in
    UB ∉ r.2 -> iv_done s = true -> leaves (Some <$> dv_past r.1) (Some f) ->
    f = v_file (dv_vec r.1) /\
    forall i b, iv_vals s !! i = Some b -> vec_get sz (open_vec sz f direct') i = Ok b.
Proof.
  intros sz direct cs f direct' Hsz Hh s r Hu Hd [(c & Hc & HL) HB].
  pose proof (dinv_calls sz false cs Hsz _ _ (dinv_open sz false direct) Hh Hu) as [R _ HD]. fold s r in R, HD.
  specialize (HD eq_refl Hd).
  assert (E : f = v_file (dv_vec r.1)).
  { apply elem_of_list_fmap in Hc as (c' & E & Hc). injection E as <-. specialize (HD _ Hc). subst c.
    apply list_eq_same_length with (length f); [done|done|]. intros i x y Hi Hx Hy.
    destruct (HB i x Hx) as (o & Ho & ->). apply elem_of_list_fmap in Ho as (c & -> & Ho).
    assert (c = v_file (dv_vec r.1)) as ->.
    { pose proof (dinv_calls sz false cs Hsz _ _ (dinv_open sz false direct) Hh Hu) as [_ _ HD']. by apply HD'. }
    cbn. by rewrite Hy. }
  split; [done|]. intros i b Hi. subst f. rewrite (rp_file _ _ _ R).
  pose proof (rp_vals _ _ _ R) as HF. assert (Hb : length b = sz) by by apply (Forall_lookup_1 _ _ _ _ HF Hi).
  pose proof (lookup_lt_Some _ _ _ Hi) as Hlt. pose proof (mjoin_len sz _ HF) as HM.
  unfold open_vec. rewrite bool_decide_eq_true_2 by (rewrite app_length, HM; nia).
  unfold vec_get. cbn [v_size v_committed negb v_file].
  rewrite bool_decide_eq_false_2.
  2:{ rewrite app_length, replicate_length, HM, <- Nat.mul_add_distr_r, Nat.div_mul by lia. lia. }
  rewrite (read_mjoin sz _ i b) by done. by rewrite bool_decide_eq_true_2.
Qed.
Print Assumptions C116_sync.

(** With a scheduler or not, committed or not: each byte that is read after a power failure is
    the one of the value pushed at this index, or zero. *)
Theorem C116_bytes :
  forall sz sched direct cs f direct' i b j x,
    0 < sz -> sync_history sz (empty_ivec direct) cs ->
    let s := ideal_calls (empty_ivec direct) cs in
    let r := dv_calls sz sched (dv_open sz [] direct) cs in
    UB ∉ r.2 -> leaves (Some <$> dv_past r.1) (Some f) ->
    vec_get sz (open_vec sz f direct') i = Ok b -> b !! j = Some x ->
    x = 0%N \/ exists v, iv_vals s !! i = Some v /\ v !! j = Some x.
Proof.
  intros sz sched direct cs f direct' i b j x Hsz Hh s r Hu [_ HB] Hg Hx.
  pose proof (dinv_calls sz sched cs Hsz _ _ (dinv_open sz sched direct) Hh Hu) as [R HC _]. fold s r in R, HC.
  unfold vec_get in Hg. case_bool_decide; [done|]. destruct (negb _); [done|]. case_bool_decide as Hlen; [|done]. injection Hg as <-.
  assert (Ef : v_file (open_vec sz f direct') = f) by (unfold open_vec; by case_bool_decide). rewrite Ef in *.
  unfold file_read in *. pose proof (lookup_lt_Some _ _ _ Hx) as Hj. rewrite take_length in Hj.
  rewrite lookup_take, lookup_drop in Hx by lia.
  destruct (HB _ _ Hx) as (o & Ho & ->). apply elem_of_list_fmap in Ho as (c & -> & Hc).
  cbn in *. destruct (c !! (i * sz + j)) as [y|] eqn:Ey; [|by left]. cbn.
  destruct (HC c _ _ Hc Ey) as [->|Hy]; [by left|]. right.
  pose proof (rp_vals _ _ _ R) as HF. pose proof (lookup_lt_Some _ _ _ Hy) as Hlt. rewrite (mjoin_len sz _ HF) in Hlt.
  destruct (lookup_lt_is_Some_2 (iv_vals s) i) as [v Hv]; [nia|]. exists v. split; [done|].
  pose proof (read_mjoin sz _ i v [] HF Hv) as E. rewrite app_nil_r in E. rewrite <- E. unfold file_read.
  rewrite lookup_take by lia. by rewrite lookup_drop.
Qed.
Print Assumptions C116_bytes.

(** The bytes of a file are those of the values pushed, each at its index, or zero. *)
Lemma write_bytes sz (vals : list bytes) f off b j : 0 < sz -> Forall (fun b => length b = sz) vals ->
  off = j * sz -> vals !! j = Some b ->
  (forall k x, f !! k = Some x -> x = 0%N \/ mjoin vals !! k = Some x) ->
  forall k x, file_write f off b !! k = Some x -> x = 0%N \/ mjoin vals !! k = Some x.
Proof.
  intros Hsz HF -> Hj Hf k x Hx. unfold file_write in Hx.
  apply lookup_app_Some in Hx as [Hx|[Hle Hx]].
  - apply lookup_take_Some in Hx as [Hx _]. apply lookup_app_Some in Hx as [Hx|[_ Hx]]; [by apply Hf|].
    apply lookup_replicate in Hx as [-> _]. by left.
  - assert (El : length (take (j * sz) (f ++ replicate (j * sz - length f) 0%N)) = j * sz).
    { rewrite take_length, app_length, replicate_length. lia. }
    rewrite El in Hle, Hx. apply lookup_app_Some in Hx as [Hx|[Hle2 Hx]].
    + right. pose proof (read_mjoin sz vals j b [] HF Hj) as E. rewrite app_nil_r in E. rewrite <- E in Hx.
      unfold file_read in Hx. apply lookup_take_Some in Hx as [Hx _]. rewrite lookup_drop in Hx.
      by replace (j * sz + (k - j * sz)) with k in Hx by lia.
    + rewrite lookup_drop in Hx. apply Hf. by replace (j * sz + length b + (k - j * sz - length b)) with k in Hx by lia.
Qed.
Lemma wait_bytes sz (vals : list bytes) : 0 < sz -> Forall (fun b => length b = sz) vals -> forall pend f,
  (forall w, w ∈ pend -> exists j, w.1 = j * sz /\ vals !! j = Some w.2) ->
  (forall k x, f !! k = Some x -> x = 0%N \/ mjoin vals !! k = Some x) ->
  forall c k x, c ∈ wait_past f pend -> c !! k = Some x -> x = 0%N \/ mjoin vals !! k = Some x.
Proof.
  intros Hsz HF. induction pend as [|w pend IH]; intros f Hp Hf c k x Hc Hx; cbn [wait_past] in Hc.
  - by apply elem_of_nil in Hc.
  - destruct (Hp w) as (j & Ej & Hj); [left|].
    assert (Hw : forall k x, file_write f w.1 w.2 !! k = Some x -> x = 0%N \/ mjoin vals !! k = Some x) by (eapply write_bytes; eauto).
    apply elem_of_cons in Hc as [->|Hc]; [by apply Hw|]. eapply IH; [|exact Hw|exact Hc|exact Hx].
    intros w' Hw'. apply Hp. by right.
Qed.
Lemma wait_past_last f pend : forall past, last past = Some f ->
  last (past ++ wait_past f pend) = Some (foldl (fun f w => file_write f w.1 w.2) f pend).
Proof.
  revert f. induction pend as [|w pend IH]; intros f past Hl; cbn [wait_past foldl]; [by rewrite app_nil_r|].
  rewrite (cons_middle _ past), app_assoc. apply IH. by rewrite last_snoc.
Qed.
Record ainv (sz : nat) (vals : list bytes) (d : dvec) : Prop := AInv {
  ai_rep : arep sz vals (dv_vec d);
  ai_last : last (dv_past d) = Some (v_file (dv_vec d));
  ai_bytes : forall c k x, c ∈ dv_past d -> c !! k = Some x -> x = 0%N \/ mjoin vals !! k = Some x
}.
Lemma ainv_file sz vals d k x : ainv sz vals d -> v_file (dv_vec d) !! k = Some x -> x = 0%N \/ mjoin vals !! k = Some x.
Proof. intros [_ HL HB]. apply HB. by apply last_Some_elem_of. Qed.
Lemma ainv_step sz vals d c : 0 < sz -> ainv sz vals d -> async_call sz c ->
  ainv sz (vals ++ match c with VAPush b => [b] | _ => [] end) (dv_call sz true d c).1.
Proof.
  intros Hsz I Hc. destruct (arep_step sz vals (dv_vec d) c Hsz (ai_rep _ _ _ I) Hc) as [A _].
  pose proof I as [A0 HL HB].
  destruct c as [|val|n| | | |i]; try done; cbn [dv_call fst].
  - split; cbn [dv_past dv_vec]; [done|done|]. intros c k x Hc' Hx. destruct (HB c k x Hc' Hx) as [->|H]; [by left|].
    right. rewrite mjoin_app. by apply lookup_app_l_Some.
  - rewrite app_nil_r in *. split; cbn [dv_past dv_vec]; [done|by rewrite last_snoc|]. intros c k x Hc' Hx.
    apply elem_of_app in Hc' as [Hc'|Hc']; [by apply (HB c)|]. apply elem_of_list_singleton in Hc' as ->.
    cbn [vec_call fst] in Hx. unfold vec_reserve in Hx. case_bool_decide; [|by eapply ainv_file]. cbn [v_file] in Hx.
    unfold file_truncate in Hx. apply lookup_app_Some in Hx as [Hx|[_ Hx]].
    + apply lookup_take_Some in Hx as [Hx _]. by eapply ainv_file.
    + apply lookup_replicate in Hx as [-> _]. by left.
  - rewrite app_nil_r in *. split; cbn [dv_past dv_vec]; [done|by rewrite last_snoc|]. intros c k x Hc' Hx.
    apply elem_of_app in Hc' as [Hc'|Hc']; [by apply (HB c)|]. apply elem_of_list_singleton in Hc' as ->.
    cbn [vec_call fst] in Hx. unfold vec_complete in Hx. destruct (v_pending (dv_vec d) !! i) as [w|] eqn:Ew; [|by eapply ainv_file].
    cbn [v_file] in Hx. destruct (ar_pend _ _ _ A0 w) as (j & Ej & Hj); [by eapply elem_of_list_lookup_2|].
    eapply (write_bytes sz vals (v_file (dv_vec d)) w.1 w.2 j); eauto; [apply (ar_vals _ _ _ A0)|]. intros; by eapply ainv_file.
Qed.
Lemma ainv_calls sz cs : 0 < sz -> forall vals d, ainv sz vals d -> Forall (async_call sz) cs ->
  ainv sz (vals ++ pushed cs) (dv_calls sz true d cs).1.
Proof.
  intros Hsz. induction cs as [|c cs IH]; intros vals d A H; [cbn; by rewrite app_nil_r|].
  apply Forall_cons in H as [Hc H]. pose proof (ainv_step sz vals d c Hsz A Hc) as A'.
  change (pushed (c :: cs)) with (match c with VAPush b => [b] | _ => [] end ++ pushed cs).
  rewrite app_assoc. by apply IH.
Qed.
Lemma dv_calls_app sz sched cs1 cs2 : forall d,
  (dv_calls sz sched d (cs1 ++ cs2)).1 = (dv_calls sz sched (dv_calls sz sched d cs1).1 cs2).1.
Proof. induction cs1 as [|c cs1 IH]; intros d; [done|]. cbn [app dv_calls fst]. apply IH. Qed.

(** Asynchronous pushes and their commit: a power failure can leave what the commit wrote, with
    each value at its index; whatever it leaves, each byte is the one of the value pushed at
    this index, or zero. *)
Theorem C116_async :
  forall sz direct cs direct',
    0 < sz -> Forall (async_call sz) cs ->
    let vals := omap (fun c => match c with VAPush b => Some b | _ => None end) cs in
    let r := dv_calls sz true (dv_open sz [] direct) (cs ++ [VCommit]) in
    (exists f, leaves (Some <$> dv_past r.1) (Some f) /\
       forall i b, vals !! i = Some b -> vec_get sz (open_vec sz f direct') i = Ok b) /\
    forall f i b j x,
      leaves (Some <$> dv_past r.1) (Some f) ->
      vec_get sz (open_vec sz f direct') i = Ok b -> b !! j = Some x ->
      x = 0%N \/ exists v, vals !! i = Some v /\ v !! j = Some x.
Proof.
  intros sz direct cs direct' Hsz H vals r.
  assert (Ev : vals = pushed cs).
  { unfold vals, pushed. clear. induction cs as [|c cs IH]; csimpl; [done|]. rewrite <- IH. by destruct c. }
  assert (I0 : ainv sz [] (dv_open sz [] direct)).
  { split; [split; try done; simpl; by intros w ?%elem_of_nil|done|]. intros c k x Hc Hx.
    apply elem_of_list_singleton in Hc as ->. done. }
  pose proof (ainv_calls sz cs Hsz _ _ I0 H) as I. cbn [app] in I. rewrite <- Ev in I.
  unfold r. rewrite dv_calls_app. clear r. set (d := (dv_calls sz true (dv_open sz [] direct) cs).1) in *.
  pose proof I as [A HL HB]. pose proof (ar_vals _ _ _ A) as HF.
  cbn [dv_calls dv_call fst]. unfold dv_commit. rewrite (ar_done _ _ _ A). cbn [dv_past].
  set (past := dv_past d ++ wait_past (v_file (dv_vec d)) (v_pending (dv_vec d))).
  pose proof (wait_past_last _ (v_pending (dv_vec d)) _ HL) as HL'. fold past in HL'.
  set (f0 := foldl _ _ _) in HL'.
  split.
  - exists f0. apply last_Some_elem_of in HL'. split.
    { split; [exists f0; split; [by apply elem_of_list_fmap_1|done]|]. intros i x Hx. exists (Some f0).
      split; [by apply elem_of_list_fmap_1|]. cbn. by rewrite Hx. }
    intros i b Hi. pose proof (wait_each sz vals Hsz HF (v_pending (dv_vec d)) (v_file (dv_vec d)) (ar_pend _ _ _ A) (ar_each _ _ _ A) i b Hi) as E.
    fold f0 in E. assert (Hb : length b = sz) by by apply (Forall_lookup_1 _ _ _ _ HF Hi).
    assert (Hlen : i * sz + sz <= length f0).
    { rewrite <- E in Hb. unfold file_read in Hb. rewrite take_length, drop_length in Hb. lia. }
    unfold open_vec. rewrite bool_decide_eq_true_2 by lia. unfold vec_get. cbn [v_size v_committed negb v_file].
    rewrite bool_decide_eq_false_2.
    2:{ assert (i <= length f0 / sz); [|lia]. apply Nat.div_le_lower_bound; nia. }
    rewrite E. by rewrite bool_decide_eq_true_2.
  - intros f i b j x [_ HBy] Hg Hx.
    unfold vec_get in Hg. case_bool_decide; [done|]. destruct (negb _); [done|]. case_bool_decide as Hlen; [|done]. injection Hg as <-.
    assert (Ef : v_file (open_vec sz f direct') = f) by (unfold open_vec; by case_bool_decide). rewrite Ef in *.
    unfold file_read in *. pose proof (lookup_lt_Some _ _ _ Hx) as Hj. rewrite take_length in Hj.
    rewrite lookup_take, lookup_drop in Hx by lia.
    destruct (HBy _ _ Hx) as (o & Ho & ->). apply elem_of_list_fmap in Ho as (c & -> & Hc).
    cbn in *. destruct (c !! (i * sz + j)) as [y|] eqn:Ey; [|by left]. cbn.
    assert (HC : y = 0%N \/ mjoin vals !! (i * sz + j) = Some y).
    { apply elem_of_app in Hc as [Hc|Hc]; [by apply (HB c)|].
      eapply (wait_bytes sz vals Hsz HF); [apply (ar_pend _ _ _ A)| |exact Hc|exact Ey]. intros; by eapply ainv_file. }
    destruct HC as [->|Hy]; [by left|]. right.
    pose proof (lookup_lt_Some _ _ _ Hy) as Hlt. rewrite (mjoin_len sz _ HF) in Hlt.
    destruct (lookup_lt_is_Some_2 vals i) as [v Hv]; [nia|]. exists v. split; [done|].
    pose proof (read_mjoin sz _ i v [] HF Hv) as E. rewrite app_nil_r in E. rewrite <- E. unfold file_read.
    rewrite lookup_take by lia. by rewrite lookup_drop.
Qed.
Print Assumptions C116_async.
Example C116_async_example :
  Forall (async_call 2) [VAPush ex_a; VAPush ex_b; VComplete 1; VAPush ex_c] /\
  dv_past (dv_calls 2 true (dv_open 2 [] false) ([VAPush ex_a; VAPush ex_b; VComplete 1; VAPush ex_c] ++ [VCommit])).1 =
    [[]; [0; 0]%N ++ ex_b; ex_a ++ ex_b; ex_a ++ ex_b ++ ex_c].
Proof. split; [by repeat constructor|by vm_compute]. Qed.

(** With a scheduler, which is how the library opens its vectors, a committed vector can be
    lost, or be full of values that were never pushed and be taken for a committed vector. *)
Theorem C116_refuted :
  exists sz cs v f,
    0 < sz /\ sync_history sz (empty_ivec false) cs /\
    let s := ideal_calls (empty_ivec false) cs in
    let r := dv_calls sz true (dv_open sz [] false) cs in
    Forall (fun o => exists x, o = Ok x) r.2 /\ iv_done s = true /\ iv_vals s = [v] /\
    leaves (Some <$> dv_past r.1) (Some []) /\ v_committed (open_vec sz [] false) = false /\
    leaves (Some <$> dv_past r.1) (Some f) /\ v_committed (open_vec sz f false) = true /\
    exists b, vec_get sz (open_vec sz f false) 0 = Ok b /\ b <> v.
Proof.
  exists 2, [VPush true ex_a; VCommit], ex_a, [0%N; 0%N]. split; [lia|]. split; [simpl; auto|]. cbv zeta.
  split. { vm_compute. repeat constructor; by eexists. }
  split; [done|]. split; [done|].
  split. { split; [|done]. exists []. split; [left|done]. }
  split; [done|].
  split. { split; [exists ex_a; split; [right; left|done]|]. intros i x Hx. exists (Some []). split; [left|]. cbn.
    destruct i as [|[|i]]; cbn in Hx; [by injection Hx as <-..|done]. }
  split; [done|]. eexists. split; [by vm_compute|]. done.
Qed.
Print Assumptions C116_refuted.
Example C116_sync_example :
  sync_history 2 (empty_ivec false) [VReserve 3; VPush true ex_a; VPush true ex_b; VCommit; VGet 1] /\
  let r := dv_calls 2 false (dv_open 2 [] false) [VReserve 3; VPush true ex_a; VPush true ex_b; VCommit; VGet 1] in
  r.2 = [Ok OUnit; Ok (OIdx 0); Ok (OIdx 1); Ok OUnit; Ok (OVal ex_b)] /\ dv_past r.1 = replicate 2 (ex_a ++ ex_b ++ [0; 0]%N) /\
  leaves (Some <$> dv_past r.1) (Some (ex_a ++ ex_b ++ [0; 0]%N)).
Proof.
  split; [simpl; repeat split; lia|]. cbv zeta. split; [by vm_compute|]. split; [by vm_compute|].
  split; [eexists; split; [left|done]|]. intros i x Hx. eexists. split; [left|]. cbn [default]. vm_compute in Hx |- *. by rewrite Hx.
Qed.
Example C116_calls_without_scheduler :
  (dv_calls 2 false (dv_open 2 [] false) [VAPush ex_a; VDirect true]).2 = [Throw RuntimeError; UB].
Proof. done. Qed.

(** ** C117: a Tethys store built before a power failure. *)
Lemma path_past_in p o : forall ops d, o ∈ path_past p d ops <-> exists k, o = dk_get p (dies d ops k).
Proof.
  induction ops as [|op ops IH]; intros d; cbn [path_past]; rewrite elem_of_cons.
  - split; [intros [->|H]; [by exists 0|by apply elem_of_nil in H]|]. intros [k ->]. left. unfold dies. by rewrite take_nil.
  - rewrite IH. split.
    + intros [->|[k ->]]; [by exists 0|by exists (S k)].
    + intros [[|k] ->]; [by left|right; by exists k].
Qed.
Lemma chunks_length sz n f : length (chunks sz n f) = n.
Proof. revert f. induction n as [|n IH]; intros f; [done|]. cbn [chunks length]. by rewrite IH. Qed.
Lemma chunks_lookup sz i : forall n f, i < n -> chunks sz n f !! i = Some (page_of sz i f).
Proof.
  induction i as [|i IH]; intros [|n] f Hi; try lia; cbn [chunks lookup list_lookup]; unfold page_of in *; [by rewrite drop_0|].
  rewrite IH by lia. by rewrite drop_drop.
Qed.
Lemma page_of_mjoin sz i T e : Forall (fun e => length e = sz) T -> T !! i = Some e -> page_of sz i (mjoin T) = e.
Proof. intros HF Hi. pose proof (read_mjoin sz T i e [] HF Hi) as E. by rewrite app_nil_r in E. Qed.
(** The lengths that the table has had. *)
Lemma left_length sp cut f d d' :
  content Pages d = [] -> length (sf_table f) = sp_n sp -> Forall (fun e => length e = kp_page (sp_enc sp)) (sf_table f) ->
  leaves (path_past Pages d (build_ops sp cut f)) (dk_get Pages d') ->
  content Pages d' = [] \/ length (content Pages d') = sp_n sp * kp_page (sp_enc sp).
Proof.
  intros HP HL HF H. unfold content. destruct (dk_get Pages d') as [bs|]; [|by left]. cbn [default]. destruct H as [(c & Hc & HLc) _].
  apply path_past_in in Hc as [k Hc].
  assert (Hcc : content Pages (dies d (build_ops sp cut f) k) = c) by (unfold content; by rewrite <- Hc).
  destruct (pages_at_death sp cut f d k HP HL HF) as [[_ E]|[_ E]]; rewrite E in Hcc.
  - left. subst c. by apply nil_length_inv.
  - right. change (length bs = sp_n sp * kp_page (sp_enc sp)). rewrite <- HLc, <- Hcc, (mjoin_len (kp_page (sp_enc sp))) by by apply partial_sizes. by rewrite partial_len, HL.
Qed.
Lemma open_left p d : 0 < kp_page p -> content Pages d <> [] ->
  open_disk p d =
    (m <~ match dk_stash d with None => Ok ∅ | Some b => deserialize_map p b end;
     Ok (Store (chunks (kp_page p) (length (content Pages d) / kp_page p) (content Pages d)) m)).
Proof.
  intros Hp H. unfold open_disk, open_vec. rewrite bool_decide_true; [done|]. destruct (content Pages d); [done|simpl; lia].
Qed.
Lemma positions_below n hs h : positions n hs = Ok h -> h.1 < n /\ h.2 < n.
Proof.
  unfold positions. intros E. case_bool_decide; [done|]. case_bool_decide; [done|]. injection E as <-.
  change (N.to_nat (hs.1 mod N.of_nat (n / 2)) < n /\ n / 2 + N.to_nat (hs.2 mod N.of_nat (n - n / 2)) < n).
  assert (n / 2 <= n) by (apply Nat.div_le_upper_bound; lia).
  pose proof (N.mod_lt hs.1 (N.of_nat (n / 2)) ltac:(lia)). pose proof (N.mod_lt hs.2 (N.of_nat (n - n / 2)) ltac:(lia)). lia.
Qed.
Lemma get_list_same sp s s' key h :
  length (st_table s') = length (st_table s) -> positions (length (st_table s)) (sp_hash sp key) = Ok h ->
  st_table s' !! h.1 = st_table s !! h.1 -> st_table s' !! h.2 = st_table s !! h.2 ->
  st_stash s' !! key = st_stash s !! key -> get_list sp s' key = get_list sp s key.
Proof.
  intros HL Eh E1 E2 E3. unfold get_list, get_buckets. rewrite HL, Eh, E3. cbn [rbind]. unfold vat. by rewrite E1, E2.
Qed.
Lemma get_list_zeroed sp s s' key r :
  kp_page (sp_enc sp) mod 8 = 0 -> sp_cipher sp = Plain ->
  length (st_table s') = length (st_table s) ->
  (forall i e, st_table s !! i = Some e -> st_table s' !! i = Some e \/ st_table s' !! i = Some (zero_page (kp_page (sp_enc sp)))) ->
  (default [] (st_stash s' !! key) = default [] (st_stash s !! key) \/ default [] (st_stash s' !! key) = []) ->
  get_list sp s key = Ok r ->
  exists r', get_list sp s' key = Ok r' /\ r' `sublist_of` r.
Proof.
  intros H8 HP HL HT HS E. unfold get_list in E |- *.
  apply rbind_ok in E as (b & Eb & E). apply rbind_ok in E as (x & Ex & E). injection E as <-.
  set (st := default [] (st_stash s !! key)) in *. set (st' := default [] (st_stash s' !! key)) in *.
  assert (Hst : st' `sublist_of` st).
  { destruct HS as [->| ->]; [done|]. apply sublist_nil_l. }
  unfold get_buckets in Eb. apply rbind_ok in Eb as (h & Eh & Eb).
  apply rbind_ok in Eb as (b0 & E0 & Eb). apply rbind_ok in Eb as (b1 & E1 & Eb). injection Eb as <-.
  cbn [fst snd] in *.
  unfold decode_list in Ex. rewrite HP in Ex. unfold decode_buckets in Ex.
  apply rbind_ok in Ex as (r0 & R0 & Ex). apply rbind_ok in Ex as (r1 & R1 & Ex). injection Ex as <-.
  assert (Hv : forall i e y, vat (st_table s) i = Ok e -> decode_single (sp_enc sp) key e = Ok y ->
    exists e' y', vat (st_table s') i = Ok e' /\ decode_single (sp_enc sp) key e' = Ok y' /\ y' `sublist_of` y).
  { intros i e y Hi Hy. apply vat_ok in Hi. destruct (HT i e Hi) as [H|H].
    - exists e, y. split; [by apply vat_ok|done].
    - eexists _, []. split; [by apply vat_ok|]. split; [by apply decode_zero|]. apply sublist_nil_l. }
  destruct (Hv _ _ _ E0 R0) as (e0 & y0 & V0 & D0 & S0). destruct (Hv _ _ _ E1 R1) as (e1 & y1 & V1 & D1 & S1).
  exists ((y0 ++ y1) ++ st'). split; [|by repeat apply sublist_app].
  unfold get_buckets. rewrite HL, Eh. cbn [rbind]. rewrite V0. cbn [rbind]. rewrite V1. cbn [rbind fst snd].
  unfold decode_list. rewrite HP. unfold decode_buckets. rewrite D0. cbn [rbind]. rewrite D1. done.
Qed.

(** The lists of which the two pages were left, with the stash, are found, whatever happened to
    the others. *)
Theorem C117_local :
  forall sp kvs b fuel cut d d',
    db_ok sp kvs -> empty_lists_last (sp_enc sp) kvs -> 0 < kp_page (sp_enc sp) ->
    loaded sp kvs b -> store_fuel (sp_enc sp) kvs <= fuel -> cuts cut ->
    content Pages d = [] -> dk_stash d = None ->
    let t := build_io fuel sp cut b d in
    let d1 := do_ops d t.2.1 in
    leaves (path_past Pages d t.2.1) (dk_get Pages d') -> content Pages d' <> [] -> dk_stash d' = dk_stash d1 ->
    t.2.2 = Ok tt /\
    exists s, open_disk (sp_enc sp) d' = Ok s /\
      forall key h, positions (sp_n sp) (sp_hash sp key) = Ok h ->
        page_of (kp_page (sp_enc sp)) h.1 (content Pages d') = page_of (kp_page (sp_enc sp)) h.1 (content Pages d1) ->
        page_of (kp_page (sp_enc sp)) h.2 (content Pages d') = page_of (kp_page (sp_enc sp)) h.2 (content Pages d1) ->
        exists r, get_list sp s key = Ok r /\ r ≡ₚ values_of key (accepted (sp_enc sp) kvs).
Proof.
  intros sp kvs b fuel cut d d' Hdb Hne Hp Hl Hfu Hcut HP HS t d1 Hleft Hfull Hstash.
  destruct (C84_complete sp kvs b fuel cut d Hdb Hne Hp Hl Hfu Hcut HP HS) as (f0 & s0 & C1 & C2 & C3 & C4 & C5 & C6 & Hg).
  fold t in C1, C2, C3, C4, C5, C6. fold d1 in C3, C4, C5. split; [done|].
  destruct (build_io_ok sp kvs b Hdb Hne Hl) as (b2 & f & s & E1 & E2 & HL & HF & _).
  assert (f0 = f) as -> by (specialize (E1 fuel Hfu); congruence).
  specialize (E2 fuel cut d Hfu HP). unfold t in Hleft. rewrite E2 in Hleft. cbn [fst snd] in Hleft.
  destruct (left_length sp cut f d d' HP HL HF Hleft) as [E|HLen]; [done|].
  pose proof (dk_size _ _ Hdb) as Hn.
  rewrite (open_disk_pages _ _ (sf_table f) Hp ltac:(lia) HF C3) in C5. rewrite open_left, Hstash by done.
  destruct (match dk_stash d1 with None => Ok ∅ | Some b0 => deserialize_map (sp_enc sp) b0 end) as [m| | |]; cbn [rbind] in C5 |- *; try done.
  injection C5 as <-. eexists. split; [done|]. intros key h Eh P1 P2. rewrite HLen, Nat.div_mul by lia.
  destruct (Hg key) as (r & Hr & Hperm). exists r. split; [|done]. rewrite <- Hr.
  destruct (positions_below _ _ _ Eh) as [B1 B2].
  assert (HC : forall i, i < sp_n sp -> page_of (kp_page (sp_enc sp)) i (content Pages d') = page_of (kp_page (sp_enc sp)) i (content Pages d1) ->
     chunks (kp_page (sp_enc sp)) (sp_n sp) (content Pages d') !! i = sf_table f !! i).
  { intros i Hi P. rewrite chunks_lookup by done. rewrite P, C3. destruct (lookup_lt_is_Some_2 (sf_table f) i) as [e He]; [lia|].
    by rewrite He, (page_of_mjoin _ _ _ e). }
  apply (get_list_same _ _ _ _ h); cbn [st_table st_stash].
  - by rewrite chunks_length.
  - by rewrite HL.
  - by apply HC.
  - by apply HC.
  - done.
Qed.
Print Assumptions C117_local.

(** When pages are lost whole and are not encrypted, and the stash is whole or lost, the store
    cannot be opened because its table is empty, or answers every key with part of its list. *)
Theorem C117_part :
  forall sp kvs b fuel cut d d',
    db_ok sp kvs -> empty_lists_last (sp_enc sp) kvs -> 0 < kp_page (sp_enc sp) ->
    loaded sp kvs b -> store_fuel (sp_enc sp) kvs <= fuel -> cuts cut ->
    content Pages d = [] -> dk_stash d = None -> sp_cipher sp = Plain ->
    let t := build_io fuel sp cut b d in
    let d1 := do_ops d t.2.1 in
    leaves (path_past Pages d t.2.1) (dk_get Pages d') ->
    whole_pages (kp_page (sp_enc sp)) (content Pages d1) (content Pages d') ->
    dk_stash d' = None \/ dk_stash d' = Some [] \/ dk_stash d' = dk_stash d1 ->
    match open_disk (sp_enc sp) d' with
    | Ok s => forall key, exists r, get_list sp s key = Ok r /\ part_of sp kvs key r
    | Throw e => e = RuntimeError /\ content Pages d' = []
    | UB | OutOfFuel => False
    end.
Proof.
  intros sp kvs b fuel cut d d' Hdb Hne Hp Hl Hfu Hcut HP HS HC t d1 Hleft Hwhole Hstash.
  destruct (C84_complete sp kvs b fuel cut d Hdb Hne Hp Hl Hfu Hcut HP HS) as (f0 & s0 & C1 & C2 & C3 & C4 & C5 & C6 & Hg).
  fold t in C1, C2, C3, C4, C5, C6. fold d1 in C3, C4, C5.
  destruct (build_io_ok sp kvs b Hdb Hne Hl) as (b2 & f & s & E1 & E2 & HL & HF & _).
  assert (f0 = f) as -> by (specialize (E1 fuel Hfu); congruence).
  specialize (E2 fuel cut d Hfu HP). unfold t in Hleft. rewrite E2 in Hleft. cbn [fst snd] in Hleft.
  destruct (left_length sp cut f d d' HP HL HF Hleft) as [E|HLen].
  { unfold open_disk. rewrite E. done. }
  pose proof (dk_size _ _ Hdb) as Hn. destruct (dk_words _ _ Hdb) as (Hv & _ & H8 & _).
  assert (Hfull : content Pages d' <> []). { intros E. rewrite E in HLen. simpl in HLen. nia. }
  rewrite (open_disk_pages _ _ (sf_table f) Hp ltac:(lia) HF C3) in C5. rewrite open_left by done.
  rewrite HLen, Nat.div_mul by lia. unfold whole_pages in Hwhole. rewrite HLen, Nat.div_mul in Hwhole by lia.
  apply rbind_ok in C5 as (m & Em & C5). injection C5 as <-.
  assert (Hgo : forall m', (forall key, default [] (m' !! key) = default [] (m !! key) \/ default [] (m' !! key) = []) ->
     forall key, exists r, get_list sp (Store (chunks (kp_page (sp_enc sp)) (sp_n sp) (content Pages d')) m') key = Ok r /\ part_of sp kvs key r).
  { intros m' Hm key. destruct (Hg key) as (r & Hr & Hperm).
    destruct (get_list_zeroed sp (Store (sf_table f) m) (Store (chunks (kp_page (sp_enc sp)) (sp_n sp) (content Pages d')) m') key r H8 HC) as (r' & Hr' & Hsub);
      cbn [st_table st_stash]; [by rewrite chunks_length| |apply Hm|exact Hr|].
    - intros i e Hi. pose proof (lookup_lt_Some _ _ _ Hi) as Hlt. rewrite chunks_lookup by lia.
      destruct (Hwhole i ltac:(lia)) as [E|E]; rewrite E; [left|by right]. rewrite C3. by rewrite (page_of_mjoin _ _ _ e).
    - exists r'. split; [done|]. unfold part_of. rewrite <- Hperm. by apply sublist_submseteq. }
  destruct Hstash as [E|[E|E]]; rewrite E.
  - cbn [rbind]. apply Hgo. intros key. right. by rewrite lookup_empty.
  - cbn. apply Hgo. intros key. right. by rewrite lookup_empty.
  - rewrite Em. cbn [rbind]. apply Hgo. intros key. by left.
Qed.
Print Assumptions C117_part.

(** Full statement refuted.  After a build that returned, a power failure may leave no store; a
    store that opens and finds nothing; or, with encrypted pages, one that finds values that
    were not inserted. *)
Definition zero_disk (n : nat) (st : option bytes) : disk := Disk None None (Some (replicate n 0%N)) st.
Lemma leaves_zero past n : (exists c, Some c ∈ past /\ length c = n) -> None ∈ past -> leaves past (Some (replicate n 0%N)).
Proof.
  intros [c [Hc HL]] HN. split; [exists c; by rewrite replicate_length|]. intros i x Hx. apply lookup_replicate in Hx as [-> _].
  by exists None.
Qed.
Lemma past_none p ops d : dk_get p d = None -> None ∈ path_past p d ops.
Proof. intros E. apply path_past_in. exists 0. unfold dies. by rewrite take_0. Qed.
Theorem C117_refuted :
  (exists sp kvs b fuel cut d',
    db_ok sp kvs /\ empty_lists_last (sp_enc sp) kvs /\ loaded sp kvs b /\ store_fuel (sp_enc sp) kvs <= fuel /\ cuts cut /\
    let t := build_io fuel sp cut b no_files in
    t.2.2 = Ok tt /\ (forall p, leaves (path_past p no_files t.2.1) (dk_get p d')) /\
    open_disk (sp_enc sp) d' = Throw RuntimeError) /\
  (exists sp kvs b fuel cut d' s key,
    db_ok sp kvs /\ empty_lists_last (sp_enc sp) kvs /\ loaded sp kvs b /\ store_fuel (sp_enc sp) kvs <= fuel /\ cuts cut /\
    let t := build_io fuel sp cut b no_files in
    t.2.2 = Ok tt /\ (forall p, leaves (path_past p no_files t.2.1) (dk_get p d')) /\
    open_disk (sp_enc sp) d' = Ok s /\ get_list sp s key = Ok [] /\ values_of key (accepted (sp_enc sp) kvs) <> []) /\
  (exists sp kvs b fuel cut d' s key r v,
    db_ok sp kvs /\ empty_lists_last (sp_enc sp) kvs /\ loaded sp kvs b /\ store_fuel (sp_enc sp) kvs <= fuel /\ cuts cut /\
    let t := build_io fuel sp cut b no_files in
    t.2.2 = Ok tt /\ (forall p, leaves (path_past p no_files t.2.1) (dk_get p d')) /\
    open_disk (sp_enc sp) d' = Ok s /\ get_list sp s key = Ok r /\ v ∈ r /\ v ∉ values_of key kvs).
Proof.
  destruct (ex_life_ok ex_sp2 (or_introl eq_refl)) as (H1 & H2 & _ & H4 & _).
  destruct (ex_loaded ex_sp2) as [b| | |] eqn:Eb; [|vm_compute in Eb; discriminate..].
  assert (Hl : loaded ex_sp2 ex_db b) by by apply ex_loaded_ok. vm_compute in Eb. injection Eb as <-.
  split; [|split].
  - exists ex_sp2, ex_db. eexists _, 1000, ex_cut, no_files. split; [exact H1|]. split; [exact H2|]. split; [exact Hl|].
    split; [apply (bool_decide_unpack _); by vm_compute|]. split; [exact H4|]. cbv zeta. split; [by vm_compute|].
    split; [intros []; by apply past_none|]. done.
  - exists ex_sp2, ex_db. eexists _, 1000, ex_cut, (zero_disk 256 None), _, (ex_key 1). split; [exact H1|]. split; [exact H2|]. split; [exact Hl|].
    split; [apply (bool_decide_unpack _); by vm_compute|]. split; [exact H4|]. cbv zeta. split; [by vm_compute|].
    split.
    { intros []; [by apply past_none..| |by apply past_none]. apply leaves_zero; [|by apply past_none].
      eexists. split; [apply path_past_in; exists 2; by vm_compute|]. by vm_compute. }
    split; [by vm_compute|]. split; [by vm_compute|]. apply (bool_decide_unpack _); by vm_compute.
  - destruct (ex_loaded ex_sp4) as [b| | |] eqn:Eb; [|vm_compute in Eb; discriminate..].
    assert (Hl4 : loaded ex_sp4 ex_db b) by by apply ex_loaded_ok. vm_compute in Eb. injection Eb as <-.
    exists ex_sp4, ex_db. eexists _, 1000, ex_cut, (zero_disk 256 None), _, (ex_key 1), _, (ex_val 99).
    split. { destruct H1 as [A B C D E]. split; auto. intros k n l. unfold ex_ks4. rewrite take_length, !app_length, replicate_length. lia. }
    split; [exact H2|]. split; [exact Hl4|].
    split; [apply (bool_decide_unpack _); by vm_compute|]. split; [exact H4|]. cbv zeta. split; [by vm_compute|].
    split.
    { intros []; [by apply past_none..| |by apply past_none]. apply leaves_zero; [|by apply past_none].
      eexists. split; [apply path_past_in; exists 2; by vm_compute|]. by vm_compute. }
    split; [by vm_compute|]. split; [by vm_compute|]. split; apply (bool_decide_unpack _); by vm_compute.
Qed.
Print Assumptions C117_refuted.
(** Four pages, of which those of numbers 1 and 3 are lost: the lists are in the others. *)
Definition ex_spD (c : cipher) : sparams := SPar ex_p 4 (fun k => (le_val k mod 2, le_val k mod 2)%N) c.
Definition ex_lost (d1 : disk) : disk :=
  let f := content Pages d1 in
  Disk None None (Some (take 128 f ++ replicate 128 0%N ++ take 128 (drop 256 f) ++ replicate 128 0%N)) (dk_stash d1).
Lemma leaves_lost (c : bytes) (past : list (option bytes)) : length c = 512 -> Some c ∈ past -> None ∈ past ->
  leaves past (Some (take 128 c ++ replicate 128 0%N ++ take 128 (drop 256 c) ++ replicate 128 0%N)).
Proof.
  intros HL Hc HN. assert (HL1 : length (take 128 c) = 128) by (rewrite take_length; lia).
  assert (HL2 : length (take 128 (drop 256 c)) = 128) by (rewrite take_length, drop_length; lia).
  split. { exists c. split; [done|]. rewrite !app_length, HL1, HL2, !replicate_length. lia. }
  intros i x Hx. apply lookup_app_Some in Hx as [Hx|[Hi Hx]].
  { exists (Some c). split; [done|]. cbn. pose proof (lookup_lt_Some _ _ _ Hx) as Hlt. rewrite HL1 in Hlt. rewrite lookup_take in Hx by lia. by rewrite Hx. }
  apply lookup_app_Some in Hx as [Hx|[Hi' Hx]].
  { apply lookup_replicate in Hx as [-> _]. by exists None. }
  apply lookup_app_Some in Hx as [Hx|[Hi'' Hx]].
  { exists (Some c). split; [done|]. cbn. pose proof (lookup_lt_Some _ _ _ Hx) as Hlt. rewrite HL2 in Hlt.
    rewrite HL1, replicate_length in *. rewrite lookup_take, lookup_drop in Hx by lia.
    replace (256 + (i - 128 - 128)) with i in Hx by lia. by rewrite Hx. }
  apply lookup_replicate in Hx as [-> _]. by exists None.
Qed.
Example C117_example : forall c, c = Plain \/ c = Encrypted ex_ks [1; 2]%N -> exists b,
  db_ok (ex_spD c) ex_db /\ empty_lists_last ex_p ex_db /\ 0 < kp_page ex_p /\ loaded (ex_spD c) ex_db b /\
  store_fuel ex_p ex_db <= 1000 /\ cuts ex_cut /\
  let t := build_io 1000 (ex_spD c) ex_cut b no_files in
  let d1 := do_ops no_files t.2.1 in
  leaves (path_past Pages no_files t.2.1) (dk_get Pages (ex_lost d1)) /\ content Pages (ex_lost d1) <> [] /\
  content Pages (ex_lost d1) <> content Pages d1 /\
  dk_stash (ex_lost d1) = dk_stash d1 /\ whole_pages (kp_page ex_p) (content Pages d1) (content Pages (ex_lost d1)) /\
  positions 4 (sp_hash (ex_spD c) (ex_key 2)) = Ok (0, 2) /\
  page_of 128 0 (content Pages (ex_lost d1)) = page_of 128 0 (content Pages d1) /\
  page_of 128 2 (content Pages (ex_lost d1)) = page_of 128 2 (content Pages d1).
Proof.
  intros c Hc. destruct (ex_life_ok ex_sp2 (or_introl eq_refl)) as (H1 & H2 & _ & H4 & _).
  destruct (ex_loaded (ex_spD c)) as [b| | |] eqn:Eb; [|destruct Hc as [-> | ->]; vm_compute in Eb; discriminate..].
  exists b. split. { destruct H1 as [A B C D E]. split; auto; [simpl; lia|]. destruct Hc as [-> | ->]; [done|]. exact ex_ks_length. }
  split; [exact H2|]. split; [simpl; lia|]. split; [by apply ex_loaded_ok|].
  split; [apply (bool_decide_unpack _); by vm_compute|]. split; [exact H4|]. cbv zeta.
  assert (EL : forall x : nat * bool * bool * bool * bool * bool * bool, (let t := build_io 1000 (ex_spD c) ex_cut b no_files in
     let d1 := do_ops no_files t.2.1 in let f := content Pages d1 in let f' := content Pages (ex_lost d1) in
     (length f, bool_decide (f' = f), bool_decide (page_of 128 0 f' = page_of 128 0 f), bool_decide (page_of 128 2 f' = page_of 128 2 f),
      bool_decide (page_of 128 1 f' = replicate 128 0%N), bool_decide (page_of 128 3 f' = replicate 128 0%N), bool_decide (length f' = 512))) = x ->
     x = (512, false, true, true, true, true, true)).
  { intros x <-. destruct Hc as [-> | ->]; vm_compute in Eb; injection Eb as <-; vm_compute; reflexivity. }
  specialize (EL _ eq_refl). cbv zeta in EL. set (t := build_io 1000 (ex_spD c) ex_cut b no_files) in *.
  set (d1 := do_ops no_files t.2.1) in *. injection EL as L1 L2 L3 L4 L5 L6 L7.
  apply bool_decide_eq_false in L2. apply bool_decide_eq_true in L3, L4, L5, L6, L7.
  split.
  { change (leaves (path_past Pages no_files t.2.1) (Some (take 128 (content Pages d1) ++ replicate 128 0%N ++ take 128 (drop 256 (content Pages d1)) ++ replicate 128 0%N))).
    apply leaves_lost; [done| |by apply past_none]. apply path_past_in. exists (length t.2.1). unfold dies. rewrite take_ge by done. fold d1.
    unfold content in L1 |- *. destruct (dk_get Pages d1); [done|]. simpl in L1. lia. }
  split; [intros E; rewrite E in L7; simpl in L7; lia|]. split; [done|]. split; [done|].
  split. { change (kp_page ex_p) with 128. intros i Hi. rewrite L7 in Hi. change (512 / 128) with 4 in Hi. destruct i as [|[|[|[|i]]]]; [by left|by right|by left|by right|lia]. }
  split; [by vm_compute|]. done.
Qed.
