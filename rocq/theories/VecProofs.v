(** Proofs about the write-once vector. *)
From stdpp Require Import prelude.
From Coq Require Import ZArith NArith Lia.
From Verif Require Import Base EncModel EncProofs VecModel VecSpec.
Local Open Scope nat_scope.

Lemma mjoin_app {A} (l1 l2 : list (list A)) : mjoin (l1 ++ l2) = mjoin l1 ++ mjoin l2.
Proof. induction l1 as [|x l1 IH]; csimpl; [done|]. by rewrite IH, app_assoc. Qed.
Lemma mjoin_singleton {A} (x : list A) : mjoin [x] = x.
Proof. csimpl. apply app_nil_r. Qed.

Lemma mjoin_len sz (vals : list bytes) : Forall (fun v => length v = sz) vals ->
  length (mjoin vals) = length vals * sz.
Proof. induction 1 as [|v l H HF IH]; csimpl; [done|]. rewrite app_length. lia. Qed.

(** Reading the i-th value. *)
Lemma read_mjoin sz vals i v (X : bytes) : Forall (fun v => length v = sz) vals ->
  vals !! i = Some v -> file_read (mjoin vals ++ X) (i * sz) sz = v.
Proof.
  intros HF Hi. unfold file_read. apply take_drop_middle in Hi as Hm.
  rewrite <- Hm in HF. apply Forall_app in HF as [H1 H2]. apply Forall_cons in H2 as [H2 H3].
  rewrite <- Hm, mjoin_app. csimpl. rewrite <- !app_assoc.
  assert (HL : length (mjoin (take i vals)) = i * sz).
  { rewrite (mjoin_len sz) by done. rewrite take_length_le; [done|]. apply lookup_lt_Some in Hi. lia. }
  rewrite drop_app_alt by done. by rewrite take_app_alt.
Qed.

Lemma file_write_end (P X bs : bytes) :
  file_write (P ++ X) (length P) bs = P ++ bs ++ drop (length bs) X.
Proof.
  unfold file_write. rewrite <- app_assoc, take_app. f_equal. f_equal.
  rewrite <- drop_drop. by rewrite drop_app.
Qed.

(** * Synchronous histories *)
Record rep (sz : nat) (s : ivec) (v : vec) : Prop := Rep {
  rp_size : v_size v = length (iv_vals s);
  rp_done : v_committed v = iv_done s;
  rp_direct : v_direct v = iv_direct s;
  rp_pending : v_pending v = [];
  rp_vals : Forall (fun b => length b = sz) (iv_vals s);
  rp_file : v_file v = mjoin (iv_vals s) ++ replicate ((iv_room s - length (iv_vals s)) * sz) 0%N;
  rp_pos : iv_done s = false -> v_pos v = length (iv_vals s) * sz
}.

Lemma rep_open sz direct : rep sz (empty_ivec direct) (open_vec sz [] direct).
Proof. split; try done; constructor. Qed.

Lemma take_replicate_plus (n m : nat) (x : N) : drop n (replicate m x) = replicate (m - n) x.
Proof. apply drop_replicate. Qed.

Lemma rep_get sz s v i : 0 < sz -> rep sz s v ->
  (i = length (iv_vals s) -> iv_room s <= length (iv_vals s)) ->
  answer s (VGet i) (b <~ vec_get sz v i; Ok (OVal b)).
Proof.
  intros Hsz [H1 H2 H3 H4 H5 H6 H7] Hi. cbn [answer]. unfold vec_get. rewrite H1, H2, H6.
  destruct (iv_done s).
  - destruct (iv_vals s !! i) as [b|] eqn:E.
    + pose proof (lookup_lt_Some _ _ _ E). rewrite bool_decide_eq_false_2 by lia. cbn [negb].
      rewrite (read_mjoin sz _ i b) by done.
      assert (length b = sz) by by apply (Forall_lookup_1 _ _ _ _ H5 E).
      by rewrite bool_decide_eq_true_2.
    + apply lookup_ge_None in E. case_bool_decide as Hb; [by eexists|]. cbn [negb].
      assert (i = length (iv_vals s)) as Ei by lia. specialize (Hi Ei).
      replace (iv_room s - length (iv_vals s)) with 0 by lia. simpl. rewrite app_nil_r.
      unfold file_read. rewrite drop_ge by (rewrite (mjoin_len sz) by done; lia).
      rewrite take_nil. rewrite bool_decide_eq_false_2 by (simpl; lia). by eexists.
  - case_bool_decide; [by eexists|]. by eexists.
Qed.

Lemma rep_wait sz s v : rep sz s v -> vec_wait v = v.
Proof. intros R. unfold vec_wait. rewrite (rp_pending _ _ _ R). simpl. destruct R. destruct v; simpl in *. by subst. Qed.

Lemma rep_step sz s v c : 0 < sz -> rep sz s v -> sync_call sz s c ->
  rep sz (ideal_call s c) (vec_call sz v c).1 /\ answer s c (vec_call sz v c).2.
Proof.
  intros Hsz R Hc. pose proof R as [H1 H2 H3 H4 H5 H6 H7].
  destruct c as [al val|val|n| |flag|i|i]; cbn [sync_call] in Hc.
  - cbn [vec_call fst snd answer ideal_call]. unfold vec_push. rewrite H2, H3.
    destruct (iv_done s) eqn:Ed; cbn [orb]; [done|].
    destruct (iv_direct s && negb al) eqn:Ea; [done|]. cbn [fst snd rbind]. split; [|by rewrite H1].
    specialize (H7 eq_refl).
    split; simpl; try done.
    + rewrite app_length. simpl. lia.
    + apply Forall_app. auto.
    + rewrite H7, H6. rewrite <- (mjoin_len sz _ H5), file_write_end.
      rewrite mjoin_app, mjoin_singleton, <- app_assoc. do 2 f_equal.
      rewrite drop_replicate, app_length, Hc. simpl. f_equal. nia.
    + intros _. rewrite H7, app_length, Hc. simpl. lia.
  - done.
  - cbn [vec_call fst snd answer ideal_call]. split; [|done]. unfold vec_reserve. rewrite H1, H2.
    destruct (iv_done s) eqn:Ed.
    { rewrite bool_decide_eq_false_2 by naive_solver. done. }
    case_decide as Hn.
    + rewrite bool_decide_eq_true_2 by done. split; simpl; try done.
      rewrite H6. unfold file_truncate. pose proof (mjoin_len sz _ H5) as HL.
      rewrite take_app_ge by (rewrite HL; nia). rewrite <- app_assoc. f_equal.
      rewrite take_replicate, <- replicate_add. f_equal.
      rewrite app_length, replicate_length, HL. nia.
    + rewrite bool_decide_eq_false_2 by tauto. done.
  - cbn [vec_call fst snd answer ideal_call]. split; [|done]. unfold vec_commit. rewrite (rep_wait _ _ _ R).
    assert (E : (if v_committed v then v else v) = v) by by destruct (v_committed v). rewrite E.
    split; simpl; try done.
  - cbn [vec_call fst snd answer ideal_call]. split; [|done]. unfold vec_set_direct.
    case_bool_decide as Hf; [subst flag; destruct s; simpl in *; by subst|]. rewrite (rep_wait _ _ _ R).
    split; simpl; try done. rewrite Hc. done.
  - cbn [vec_call fst snd ideal_call]. split; [done|]. by apply rep_get.
  - cbn [vec_call fst snd answer ideal_call]. split; [|done]. unfold vec_complete. by rewrite H4.
Qed.

Lemma rep_history sz cs : 0 < sz -> forall s v,
  rep sz s v -> sync_history sz s cs ->
  rep sz (ideal_calls s cs) (vec_calls sz v cs).1 /\ answers s cs (vec_calls sz v cs).2.
Proof.
  intros Hsz. induction cs as [|c cs IH]; intros s v R H; [done|].
  destruct H as [Hc H]. destruct (rep_step sz s v c Hsz R Hc) as [R' A].
  cbn [vec_calls fst snd]. destruct (IH _ _ R' H) as [R2 A2]. cbn [ideal_calls foldl answers].
  split; [done|]. done.
Qed.

(** * Asynchronous pushes *)
Lemma file_read_length_le f off n : length (file_read f off n) <= n.
Proof. unfold file_read. rewrite take_length. lia. Qed.

Lemma file_read_write_same f off bs : file_read (file_write f off bs) off (length bs) = bs.
Proof.
  unfold file_read, file_write.
  assert (HL : length (take off (f ++ replicate (off - length f) 0%N)) = off).
  { rewrite take_length, app_length, replicate_length. lia. }
  rewrite drop_app_alt by done. by rewrite take_app.
Qed.

Lemma file_read_prefix f off n b : file_read f off n = b -> length b = n ->
  0 < n -> off + n <= length f.
Proof. intros <- H Hn. unfold file_read in H. rewrite take_length, drop_length in H. lia. Qed.

Lemma lookup_file_write f off bs k : k < off \/ off + length bs <= k -> k < length f ->
  file_write f off bs !! k = f !! k.
Proof.
  intros Hk Hf. unfold file_write.
  assert (HL : length (take off (f ++ replicate (off - length f) 0%N)) = off).
  { rewrite take_length, app_length, replicate_length. lia. }
  destruct Hk as [Hk|Hk].
  - rewrite lookup_app_l by lia. rewrite lookup_take by done. by rewrite lookup_app_l.
  - rewrite lookup_app_r by lia. rewrite HL. rewrite lookup_app_r by lia.
    rewrite lookup_drop. f_equal. lia.
Qed.

Lemma file_write_length f off bs : length f <= length (file_write f off bs).
Proof.
  unfold file_write. rewrite !app_length, take_length, app_length, replicate_length, drop_length. lia.
Qed.

Lemma file_read_ext f g off n : off + n <= length f -> length f <= length g ->
  (forall k, off <= k < off + n -> g !! k = f !! k) -> file_read g off n = file_read f off n.
Proof.
  intros H1 H2 H. apply list_eq. intros k. unfold file_read.
  destruct (decide (k < n)).
  - rewrite !lookup_take by done. rewrite !lookup_drop. apply H. lia.
  - rewrite !lookup_ge_None_2; [done| |]; rewrite take_length; lia.
Qed.

Lemma file_read_write_other sz f i j b bs : 0 < sz -> i <> j -> length bs = sz -> length b = sz ->
  file_read f (i * sz) sz = b -> file_read (file_write f (j * sz) bs) (i * sz) sz = b.
Proof.
  intros Hsz Hij Hbs Hb H. pose proof (file_read_prefix _ _ _ _ H Hb Hsz) as HL.
  rewrite (file_read_ext f); [done|done|apply file_write_length|].
  intros k Hk. apply lookup_file_write; [|lia]. destruct (decide (i < j)); nia.
Qed.

Lemma file_read_truncate sz f n i b : 0 < sz -> i < n -> length b = sz ->
  file_read f (i * sz) sz = b -> file_read (file_truncate f (n * sz)) (i * sz) sz = b.
Proof.
  intros Hsz Hi Hb H. pose proof (file_read_prefix _ _ _ _ H Hb Hsz) as HL.
  rewrite <- H. unfold file_read, file_truncate.
  rewrite drop_app_le by (rewrite take_length; nia).
  rewrite take_app_le by (rewrite drop_length, take_length; nia).
  rewrite !take_drop_commute, take_take. do 2 f_equal. nia.
Qed.

(** Each value is either in the file or waiting to be written there. *)
Record arep (sz : nat) (vals : list bytes) (v : vec) : Prop := ARep {
  ar_size : v_size v = length vals;
  ar_done : v_committed v = false;
  ar_vals : Forall (fun b => length b = sz) vals;
  ar_pend : forall w, w ∈ v_pending v -> exists j, w.1 = j * sz /\ vals !! j = Some w.2;
  ar_each : forall j b, vals !! j = Some b ->
     (j * sz, b) ∈ v_pending v \/ file_read (v_file v) (j * sz) sz = b
}.

Lemma ar_write sz vals f (pend pend' : list (nat * bytes)) w : 0 < sz ->
  Forall (fun b => length b = sz) vals ->
  (exists j, w.1 = j * sz /\ vals !! j = Some w.2) ->
  (forall x, x ∈ pend -> x = w \/ x ∈ pend') ->
  (forall j b, vals !! j = Some b -> (j * sz, b) ∈ pend \/ file_read f (j * sz) sz = b) ->
  forall j b, vals !! j = Some b ->
    (j * sz, b) ∈ pend' \/ file_read (file_write f w.1 w.2) (j * sz) sz = b.
Proof.
  intros Hsz HF (k & Ek & Hk) Hp Ha j b Hj.
  assert (Hlw : length w.2 = sz) by by apply (Forall_lookup_1 _ _ _ _ HF Hk).
  assert (Hlb : length b = sz) by by apply (Forall_lookup_1 _ _ _ _ HF Hj).
  destruct (decide (j = k)) as [->|Hjk].
  - right. rewrite Ek. rewrite Hk in Hj. injection Hj as <-. pose proof (file_read_write_same f (k * sz) w.2) as E. by rewrite Hlw in E.
  - destruct (Ha j b Hj) as [H|H].
    + apply Hp in H as [<-|H]; [|by left]. simpl in Ek. exfalso. apply Hjk. nia.
    + right. rewrite Ek. by apply file_read_write_other.
Qed.

Lemma elem_of_delete_inv {A} (l : list A) i x y : l !! i = Some x -> y ∈ l -> y = x \/ y ∈ delete i l.
Proof.
  intros Hi Hy. apply delete_Permutation in Hi. rewrite Hi in Hy. by apply elem_of_cons in Hy.
Qed.
Lemma elem_of_delete_in {A} (l : list A) i y : y ∈ delete i l -> y ∈ l.
Proof.
  intros Hy. destruct (l !! i) as [x|] eqn:Hi.
  - pose proof (delete_Permutation l i x Hi) as HP. rewrite HP. by right.
  - apply lookup_ge_None in Hi. rewrite delete_take_drop, take_ge, drop_ge, app_nil_r in Hy by lia. done.
Qed.

Lemma arep_step sz vals v c : 0 < sz -> arep sz vals v -> async_call sz c ->
  arep sz (vals ++ match c with VAPush b => [b] | _ => [] end) (vec_call sz v c).1 /\
  (vec_call sz v c).2 = Ok (match c with VAPush _ => OIdx (length vals) | _ => OUnit end).
Proof.
  intros Hsz [A1 A2 A3 A4 A5] Hc. destruct c as [|val|n| | | |i]; try done; cbn [vec_call fst snd].
  - simpl in Hc. cbn [vec_apush fst snd rbind]. split; [|by rewrite A1]. split; simpl; auto.
    + rewrite app_length. simpl. lia.
    + apply Forall_app. auto.
    + intros w Hw. apply elem_of_app in Hw as [Hw|Hw].
      * destruct (A4 w Hw) as (j & E1 & E2). exists j. split; [done|]. by apply lookup_app_l_Some.
      * apply elem_of_list_singleton in Hw as ->. exists (length vals). rewrite A1. split; [done|].
        simpl. by rewrite lookup_app_r, Nat.sub_diag.
    + intros j b Hj. apply lookup_app_Some in Hj as [Hj|[Hle Hj]].
      * destruct (A5 j b Hj); [left|by right]. apply elem_of_app. by left.
      * left. apply list_lookup_singleton_Some in Hj as [Hj ->]. apply elem_of_app. right.
        apply elem_of_list_singleton. rewrite A1. f_equal. f_equal. lia.
  - rewrite app_nil_r. split; [|done]. unfold vec_reserve. case_bool_decide as H; [|by split].
    split; simpl; auto. intros j b Hj. destruct (A5 j b Hj) as [|H5]; [by left|right].
    apply file_read_truncate; auto.
    + apply lookup_lt_Some in Hj. lia.
    + by apply (Forall_lookup_1 _ _ _ _ A3 Hj).
  - rewrite app_nil_r. split; [|done]. unfold vec_complete. destruct (v_pending v !! i) as [w|] eqn:Ew; [|by split].
    split; simpl; auto.
    + intros x Hx. apply A4. by eapply elem_of_delete_in.
    + apply (ar_write sz vals (v_file v) (v_pending v)); auto.
      * apply A4. by eapply elem_of_list_lookup_2.
      * intros x Hx. by eapply elem_of_delete_inv.
Qed.

Definition pushed (cs : list vcall) : list bytes :=
  mjoin ((fun c => match c with VAPush b => [b] | _ => [] end) <$> cs).

Lemma arep_history sz cs : 0 < sz -> forall vals v, arep sz vals v -> Forall (async_call sz) cs ->
  arep sz (vals ++ pushed cs) (vec_calls sz v cs).1.
Proof.
  intros Hsz. unfold pushed. induction cs as [|c cs IH]; intros vals v A H; csimpl; [by rewrite app_nil_r|].
  apply Forall_cons in H as [Hc H]. destruct (arep_step sz vals v c Hsz A Hc) as [A' _].
  rewrite app_assoc. by apply IH.
Qed.

Lemma wait_each sz vals : 0 < sz -> Forall (fun b => length b = sz) vals -> forall pend f,
  (forall w, w ∈ pend -> exists j, w.1 = j * sz /\ vals !! j = Some w.2) ->
  (forall j b, vals !! j = Some b -> (j * sz, b) ∈ pend \/ file_read f (j * sz) sz = b) ->
  forall j b, vals !! j = Some b ->
    file_read (foldl (fun f w => file_write f w.1 w.2) f pend) (j * sz) sz = b.
Proof.
  intros Hsz HF. induction pend as [|w pend IH]; intros f H1 H2 j b Hj; simpl.
  - destruct (H2 j b Hj) as [H|H]; [by apply elem_of_nil in H|done].
  - apply IH; [|intros k c Hk|done].
    + intros x Hx. apply H1. by right.
    + apply (ar_write sz vals f (w :: pend) pend w); auto.
      * apply H1. left.
      * intros x Hx. by apply elem_of_cons in Hx.
Qed.

Lemma arep_commit sz vals v i : 0 < sz -> arep sz vals v -> i < length vals ->
  vec_get sz (vec_commit v) i = from_option Ok UB (vals !! i).
Proof.
  intros Hsz [A1 A2 A3 A4 A5] Hi. destruct (lookup_lt_is_Some_2 vals i Hi) as [b Hb].
  unfold vec_get, vec_commit. rewrite A2. simpl. rewrite A1.
  rewrite bool_decide_eq_false_2 by lia.
  rewrite (wait_each sz vals Hsz A3 _ _ A4 A5 i b Hb).
  rewrite bool_decide_eq_true_2 by by apply (Forall_lookup_1 _ _ _ _ A3 Hb). by rewrite Hb.
Qed.
