(** Final theorems about the write-once vector (properties C24 to C28, C57). *)
From stdpp Require Import prelude.
From Coq Require Import ZArith NArith Lia.
From Verif Require Import Base EncModel VecModel VecSpec VecProofs.
Local Open Scope nat_scope.

(** Values of two bytes for the examples. *)
Definition ex_a : bytes := [1; 2]%N.
Definition ex_b : bytes := [3; 4]%N.
Definition ex_c : bytes := [5; 6]%N.
Definition ex_hist : list vcall :=
  [VReserve 2; VPush true ex_a; VGet 0; VPush true ex_b; VPush false ex_c; VCommit; VCommit;
   VPush true ex_a; VGet 1; VGet 2; VGet 3; VGet 4; VDirect true; VGet 0].

(** ** C24: the vector returns what was pushed. *)
(** Every call of every synchronous history is answered as by the ideal vector. *)
Theorem C24_history :
  forall sz direct cs,
    0 < sz -> sync_history sz (empty_ivec direct) cs ->
    answers (empty_ivec direct) cs (vec_calls sz (open_vec sz [] direct) cs).2.
Proof.
  intros sz direct cs Hsz H. by apply (rep_history sz cs Hsz _ _ (rep_open sz direct)).
Qed.
Print Assumptions C24_history.
Example ex_hist_ok : sync_history 2 (empty_ivec false) ex_hist /\
  iv_vals (ideal_calls (empty_ivec false) ex_hist) = [ex_a; ex_b; ex_c] /\
  (vec_calls 2 (open_vec 2 [] false) ex_hist).2 =
   [Ok OUnit; Ok (OIdx 0); Throw RuntimeError; Ok (OIdx 1); Ok (OIdx 2); Ok OUnit; Ok OUnit;
    Throw RuntimeError; Ok (OVal ex_b); Ok (OVal ex_c); Throw RuntimeError; Throw InvalidArgument;
    Ok OUnit; Ok (OVal ex_a)].
Proof. split; [|by vm_compute]. simpl. repeat split; lia. Qed.

(** Closing and reopening: the same values, already committed. *)
Theorem C24_reopen :
  forall sz direct cs direct',
    0 < sz -> sync_history sz (empty_ivec direct) cs ->
    let s := ideal_calls (empty_ivec direct) cs in
    iv_vals s <> [] -> iv_room s <= length (iv_vals s) ->
    let v := open_vec sz (vec_close (vec_calls sz (open_vec sz [] direct) cs).1) direct' in
    v_committed v = true /\ v_size v = length (iv_vals s) /\
    forall i, match iv_vals s !! i with
              | Some b => vec_get sz v i = Ok b
              | None => exists e, vec_get sz v i = Throw e
              end.
Proof.
  intros sz direct cs direct' Hsz H s Hne Hr v.
  destruct (rep_history sz cs Hsz _ _ (rep_open sz direct) H) as [R _]. fold s in R.
  assert (Ef : vec_close (vec_calls sz (open_vec sz [] direct) cs).1 = mjoin (iv_vals s)).
  { unfold vec_close, vec_commit. rewrite (rep_wait _ _ _ R).
    assert (E : forall w : vec, v_file w = mjoin (iv_vals s) -> v_file (if v_committed w then w
       else Vec (v_file (if v_committed w then w else w)) (v_pos (if v_committed w then w else w))
         (v_size (if v_committed w then w else w)) true (v_direct (if v_committed w then w else w))
         (v_pending (if v_committed w then w else w))) = mjoin (iv_vals s)).
    { intros w Hw. destruct (v_committed w) eqn:Ec; simpl; [done|]. done. }
    apply E. rewrite (rp_file _ _ _ R).
    replace (iv_room s - length (iv_vals s)) with 0 by lia. simpl. apply app_nil_r. }
  pose proof (mjoin_len sz _ (rp_vals _ _ _ R)) as HL.
  assert (0 < length (iv_vals s)) by (destruct (iv_vals s); simpl; [done|lia]).
  unfold v. rewrite Ef. unfold open_vec. rewrite bool_decide_eq_true_2 by nia. simpl.
  rewrite HL, Nat.div_mul by lia. split_and!; auto. intros i.
  pose proof (rep_get sz (IVec (iv_vals s) true direct' 0)
    (Vec (mjoin (iv_vals s)) 0 (length (iv_vals s)) true direct' []) i Hsz) as G.
  assert (G' : answer (IVec (iv_vals s) true direct' 0) (VGet i)
    (b <~ vec_get sz (Vec (mjoin (iv_vals s)) 0 (length (iv_vals s)) true direct' []) i; Ok (OVal b))).
  { apply G; [|simpl; lia]. split; simpl; auto; [apply R|by rewrite app_nil_r|done]. }
  simpl in G'. destruct (iv_vals s !! i) as [b|].
  - apply rbind_ok in G' as (b' & G1 & G2). rewrite G1. by injection G2 as ->.
  - destruct G' as [e Ge]. destruct (vec_get sz _ i); try done. by eexists.
Qed.
Print Assumptions C24_reopen.
Example ex_reopen : sync_history 2 (empty_ivec false) (ex_hist) /\
  let s := ideal_calls (empty_ivec false) ex_hist in iv_vals s <> [] /\ iv_room s <= length (iv_vals s).
Proof. split; [apply ex_hist_ok|]. split; [done|]. vm_compute. lia. Qed.

(** Reopening does not give the same vector when more room was reserved than used:
    the size counts the reserved entries. *)
Theorem C24_reserved_refuted :
  exists sz cs, sync_history sz (empty_ivec false) cs /\
    iv_done (ideal_calls (empty_ivec false) cs) = true /\
    v_size (open_vec sz (vec_close (vec_calls sz (open_vec sz [] false) cs).1) false) <>
      length (iv_vals (ideal_calls (empty_ivec false) cs)).
Proof. exists 2, [VReserve 3; VPush true ex_a; VCommit]. by vm_compute. Qed.
Print Assumptions C24_reserved_refuted.
(** An empty committed vector is not committed any more once reopened. *)
Theorem C24_empty_refuted :
  exists sz cs, sync_history sz (empty_ivec false) cs /\
    iv_done (ideal_calls (empty_ivec false) cs) = true /\
    v_committed (open_vec sz (vec_close (vec_calls sz (open_vec sz [] false) cs).1) false) = false.
Proof. exists 2, [VCommit]. by vm_compute. Qed.
Print Assumptions C24_empty_refuted.
(** Changing the mode of access before the commit makes later values overwrite the
    first ones. *)
Theorem C24_direct_refuted :
  exists sz a b, let v := (vec_calls sz (open_vec sz [] false)
      [VPush true a; VDirect true; VPush true b; VCommit]).1 in
    length a = sz /\ length b = sz /\ vec_get sz v 0 = Ok b /\ a <> b /\
    exists e, vec_get sz v 1 = Throw e.
Proof. exists 2, ex_a, ex_b. vm_compute. split_and!; try done. by eexists. Qed.
Print Assumptions C24_direct_refuted.

(** ** C25: committed vectors are immutable. *)
Theorem C25_committed :
  forall sz v cs,
    v_committed v = true -> v_pending v = [] -> (forall b, VAPush b ∉ cs) ->
    let r := vec_calls sz v cs in
    v_file r.1 = v_file v /\ v_size r.1 = v_size v /\ v_committed r.1 = true /\
    Forall2 (fun c o => match c with
      | VPush _ _ => o = Throw RuntimeError
      | VGet i => o = (b <~ vec_get sz v i; Ok (OVal b))
      | _ => True end) cs r.2.
Proof.
  intros sz v cs. cbn zeta.
  assert (G : forall w, v_file w = v_file v -> v_size w = v_size v -> v_committed w = true ->
    v_committed v = true -> forall i, vec_get sz w i = vec_get sz v i).
  { intros w E1 E2 E3 E4 i. unfold vec_get. by rewrite E1, E2, E3, E4. }
  enough (HH : forall w, v_file w = v_file v -> v_size w = v_size v -> v_committed w = true ->
    v_pending w = [] -> v_committed v = true -> (forall b, VAPush b ∉ cs) ->
    v_file (vec_calls sz w cs).1 = v_file v /\ v_size (vec_calls sz w cs).1 = v_size v /\
    v_committed (vec_calls sz w cs).1 = true /\
    Forall2 (fun c o => match c with
      | VPush _ _ => o = Throw RuntimeError
      | VGet i => o = (b <~ vec_get sz v i; Ok (OVal b))
      | _ => True end) cs (vec_calls sz w cs).2).
  { intros. by apply HH. }
  induction cs as [|c cs IH]; intros w E1 E2 E3 E4 E5 Hc; [split_and!; auto; constructor|].
  cbn [vec_calls fst snd].
  assert (S : v_file (vec_call sz w c).1 = v_file v /\ v_size (vec_call sz w c).1 = v_size v /\
    v_committed (vec_call sz w c).1 = true /\ v_pending (vec_call sz w c).1 = [] /\
    match c with
      | VPush _ _ => (vec_call sz w c).2 = Throw RuntimeError
      | VGet i => (vec_call sz w c).2 = (b <~ vec_get sz v i; Ok (OVal b))
      | _ => True end).
  { destruct c as [al val|val|n| |flag|i|i]; cbn [vec_call fst snd].
    - unfold vec_push. by rewrite E3.
    - exfalso. apply (Hc val). left.
    - unfold vec_reserve. rewrite E3. by rewrite bool_decide_eq_false_2 by naive_solver.
    - unfold vec_commit. by rewrite E3.
    - unfold vec_set_direct, vec_wait. rewrite E4. case_bool_decide; simpl; auto.
    - split_and!; auto. by rewrite (G w E1 E2 E3 E5).
    - unfold vec_complete. by rewrite E4. }
  destruct S as (S1 & S2 & S3 & S4 & S5).
  destruct (IH _ S1 S2 S3 S4 E5) as (T1 & T2 & T3 & T4).
  { intros b Hb. apply (Hc b). by right. }
  split_and!; auto.
Qed.
Print Assumptions C25_committed.
Theorem C25_uncommitted_get :
  forall sz v i, v_committed v = false -> exists e, vec_get sz v i = Throw e.
Proof. intros sz v i H. unfold vec_get. rewrite H. case_bool_decide; by eexists. Qed.
Print Assumptions C25_uncommitted_get.
Example ex_committed : let v := (vec_calls 2 (open_vec 2 [] false) ex_hist).1 in
  v_committed v = true /\ v_pending v = [] /\ v_size v = 3.
Proof. by vm_compute. Qed.

(** async_push_back does not check that the vector is committed: the content of a
    committed vector changes. *)
Theorem C25_async_push_refuted :
  exists sz v b i,
    v_committed v = true /\ v_pending v = [] /\ v_size v = 1 /\ length b = sz /\
    (exists e, vec_get sz v i = Throw e) /\
    vec_get sz (vec_calls sz v [VAPush b; VComplete 0]).1 i = Ok b.
Proof.
  exists 2, (vec_calls 2 (open_vec 2 [] false) [VPush true ex_a; VCommit]).1, ex_b, 1.
  vm_compute. split_and!; try done. by eexists.
Qed.
Print Assumptions C25_async_push_refuted.

(** ** C26: reads out of range. *)
Theorem C26_out_of_range :
  forall sz direct cs,
    0 < sz -> sync_history sz (empty_ivec direct) cs ->
    let s := ideal_calls (empty_ivec direct) cs in
    let v := (vec_calls sz (open_vec sz [] direct) cs).1 in
    forall i, length (iv_vals s) <= i -> (i = length (iv_vals s) -> iv_room s <= i) ->
      exists e, vec_get sz v i = Throw e.
Proof.
  intros sz direct cs Hsz H s v i Hi Hr.
  destruct (rep_history sz cs Hsz _ _ (rep_open sz direct) H) as [R _]. fold s v in R.
  pose proof (rep_get sz s v i Hsz R) as G. cbn [answer] in G.
  rewrite (lookup_ge_None_2 _ _ Hi) in G.
  assert (G' : exists e, (b <~ vec_get sz v i; Ok (OVal b)) = Throw e).
  { destruct (iv_done s); apply G; lia. }
  destruct G' as [e Ge]. destruct (vec_get sz v i); try done. by eexists.
Qed.
Print Assumptions C26_out_of_range.
Example ex_range : let s := ideal_calls (empty_ivec false) ex_hist in
  length (iv_vals s) <= 3 /\ (3 = length (iv_vals s) -> iv_room s <= 3).
Proof. vm_compute. split; lia. Qed.
(** With reserved room, the entry that follows the last one is read as zeros. *)
Theorem C26_reserved_refuted :
  exists sz cs, let v := (vec_calls sz (open_vec sz [] false) cs).1 in
    v_committed v = true /\ length (iv_vals (ideal_calls (empty_ivec false) cs)) = 1 /\
    v_size v = 1 /\ vec_get sz v 1 = Ok (replicate sz 0%N) /\
    vec_async_get sz v 1 = Ok (Some (replicate sz 0%N)).
Proof. exists 2, [VReserve 2; VPush true ex_a; VCommit]. by vm_compute. Qed.
Print Assumptions C26_reserved_refuted.

(** Asynchronous reads: the callback receives the value pushed at the index; it
    receives nothing at the index that follows the last one; the reads beyond it and
    those of a vector not committed are refused. *)
Theorem C26_async :
  forall sz direct cs,
    0 < sz -> sync_history sz (empty_ivec direct) cs ->
    let s := ideal_calls (empty_ivec direct) cs in
    let v := (vec_calls sz (open_vec sz [] direct) cs).1 in
    forall i, (i = length (iv_vals s) -> iv_room s <= i) ->
      if iv_done s then
        match iv_vals s !! i with
        | Some b => vec_async_get sz v i = Ok (Some b)
        | None => vec_async_get sz v i =
                    if decide (i = length (iv_vals s)) then Ok None else Throw InvalidArgument
        end
      else vec_async_get sz v i = Throw RuntimeError.
Proof.
  intros sz direct cs Hsz H s v i Hi.
  destruct (rep_history sz cs Hsz _ _ (rep_open sz direct) H) as [[H1 H2 H3 H4 H5 H6 H7] _]. fold s v in H1, H2, H5, H6.
  unfold vec_async_get. rewrite H1, H2, H6. destruct (iv_done s); [|done]. cbn [negb].
  destruct (iv_vals s !! i) as [b|] eqn:E.
  - pose proof (lookup_lt_Some _ _ _ E). rewrite bool_decide_eq_false_2 by lia.
    rewrite (read_mjoin sz _ i b) by done.
    assert (length b = sz) by by apply (Forall_lookup_1 _ _ _ _ H5 E).
    by rewrite bool_decide_eq_true_2.
  - apply lookup_ge_None in E. case_decide as Ei.
    + rewrite bool_decide_eq_false_2 by lia. specialize (Hi Ei).
      replace (iv_room s - length (iv_vals s)) with 0 by lia. simpl. rewrite app_nil_r.
      unfold file_read. rewrite drop_ge by (rewrite (mjoin_len sz) by done; lia).
      rewrite take_nil. by rewrite bool_decide_eq_false_2 by (simpl; lia).
    + by rewrite bool_decide_eq_true_2 by lia.
Qed.
Print Assumptions C26_async.
(** A file cut in the middle of a value (a copy that was interrupted): the value that
    is not whole is not given, neither to the caller of get nor to the callback. *)
Theorem C26_truncated :
  forall sz file direct i,
    0 < sz -> let v := open_vec sz file direct in
    (i + 1) * sz > length file ->
    (exists e, vec_get sz v i = Throw e) /\
    (vec_async_get sz v i = Ok None \/ exists e, vec_async_get sz v i = Throw e).
Proof.
  intros sz file direct i Hsz v Hi.
  assert (Hr : length (file_read (v_file v) (i * sz) sz) <> sz).
  { replace (v_file v) with file by (unfold v, open_vec; by case_bool_decide).
    unfold file_read. rewrite take_length, drop_length. lia. }
  unfold vec_get, vec_async_get. rewrite (bool_decide_eq_false_2 _ Hr).
  destruct (v_committed v); cbn [negb]; case_bool_decide; eauto.
Qed.
Print Assumptions C26_truncated.
Example ex_truncated : let v := open_vec 2 [1; 2; 3]%N false in
  (1 + 1) * 2 > length [1; 2; 3]%N /\ v_committed v = true /\ vec_async_get 2 v 0 = Ok (Some ex_a) /\
  vec_async_get 2 v 1 = Ok None.
Proof. vm_compute. split_and!; auto; lia. Qed.

(** ** C27: death of the process before the commit. *)
(** A vector that looks committed lacks a value that was pushed. *)
Theorem C27_refuted :
  exists sz cs a i,
    (exists j, cs !! j = Some (VAPush a)) /\ VCommit ∉ cs /\
    (** [a] was given the index [i] *)
    (exists j, (vec_calls sz (open_vec sz [] false) cs).2 !! j = Some (Ok (OIdx i))
       /\ cs !! j = Some (VAPush a)) /\
    let v := open_vec sz (vec_crash (vec_calls sz (open_vec sz [] false) cs).1) false in
    v_committed v = true /\ exists b, vec_get sz v i = Ok b /\ b <> a.
Proof.
  exists 2, [VAPush ex_a; VAPush ex_b; VComplete 1], ex_a, 0. split; [by exists 0|].
  split; [|split; [by exists 0|]].
  - by rewrite !elem_of_cons, elem_of_nil; intros [?|[?|[?|?]]].
  - vm_compute. split; [done|]. by eexists.
Qed.
Print Assumptions C27_refuted.
(** Synchronous pushes are not lost, even if the process dies in the middle of the
    write of another value [b], as long as no room is reserved. *)
Theorem C27_sync_keeps :
  forall sz direct cs b k direct',
    0 < sz -> sync_history sz (empty_ivec direct) cs -> k < sz -> length b = sz ->
    let s := ideal_calls (empty_ivec direct) cs in
    iv_vals s <> [] -> iv_room s <= length (iv_vals s) -> iv_done s = false ->
    let v := (vec_calls sz (open_vec sz [] direct) cs).1 in
    let v' := open_vec sz (file_write (vec_crash v) (v_pos v) (take k b)) direct' in
    v_size v' = length (iv_vals s) /\
    forall i c, iv_vals s !! i = Some c -> vec_get sz v' i = Ok c.
Proof.
  intros sz direct cs b k direct' Hsz H Hk Hb s Hne Hr Hd v v'.
  destruct (rep_history sz cs Hsz _ _ (rep_open sz direct) H) as [R _]. fold s v in R.
  pose proof (mjoin_len sz _ (rp_vals _ _ _ R)) as HL.
  assert (0 < length (iv_vals s)) by (destruct (iv_vals s); simpl; [done|lia]).
  assert (Ef : file_write (vec_crash v) (v_pos v) (take k b) = mjoin (iv_vals s) ++ take k b).
  { unfold vec_crash. rewrite (rp_file _ _ _ R), (rp_pos _ _ _ R Hd), <- HL, file_write_end.
    replace (iv_room s - length (iv_vals s)) with 0 by lia. simpl.
    by rewrite drop_nil, app_nil_r. }
  unfold v'. rewrite Ef. unfold open_vec.
  assert (HL2 : length (mjoin (iv_vals s) ++ take k b) = length (iv_vals s) * sz + k).
  { rewrite app_length, take_length, HL. lia. }
  rewrite bool_decide_eq_true_2 by (rewrite HL2; nia). simpl. rewrite HL2.
  rewrite Nat.div_add_l, Nat.div_small, Nat.add_0_r by lia. split; [done|].
  intros i c Hi. unfold vec_get. simpl. pose proof (lookup_lt_Some _ _ _ Hi).
  rewrite bool_decide_eq_false_2 by lia. rewrite (read_mjoin sz _ i c) by (done || apply R).
  rewrite bool_decide_eq_true_2; [done|].
  by apply (Forall_lookup_1 _ _ _ _ (rp_vals _ _ _ R) Hi).
Qed.
Print Assumptions C27_sync_keeps.
Example ex_crash : let cs := [VPush true ex_a; VPush true ex_b] in
  sync_history 2 (empty_ivec false) cs /\ iv_vals (ideal_calls (empty_ivec false) cs) <> [] /\
  iv_room (ideal_calls (empty_ivec false) cs) = 0 /\ iv_done (ideal_calls (empty_ivec false) cs) = false.
Proof. simpl. split_and!; done. Qed.

(** ** C28: asynchronous pushes. *)
(** Whatever the order in which the writes are performed, before or during the
    commit, the i-th value pushed is found at index i. *)
Theorem C28_async_pushes :
  forall sz direct cs,
    0 < sz -> Forall (async_call sz) cs ->
    let vals := omap (fun c => match c with VAPush b => Some b | _ => None end) cs in
    let r := vec_calls sz (open_vec sz [] direct) cs in
    omap (fun o => match o with Ok (OIdx i) => Some i | _ => None end) r.2 = seq 0 (length vals) /\
    forall i b, vals !! i = Some b -> vec_get sz (vec_commit r.1) i = Ok b.
Proof.
  intros sz direct cs Hsz H vals r.
  assert (Ev : vals = pushed cs).
  { unfold vals, pushed. clear. induction cs as [|c cs IH]; csimpl; [done|].
    rewrite <- IH. by destruct c. }
  assert (A0 : arep sz [] (open_vec sz [] direct)).
  { split; try done; simpl. by intros w ?%elem_of_nil. }
  split.
  - unfold r. rewrite Ev. clear r Ev vals.
    enough (HH : forall vs v, arep sz vs v ->
      omap (fun o => match o with Ok (OIdx i) => Some i | _ => None end) (vec_calls sz v cs).2 =
      seq (length vs) (length (pushed cs))) by by apply (HH []).
    induction cs as [|c cs IH]; intros vs v A; [done|]. cbn [vec_calls fst snd].
    apply Forall_cons in H as [Hc H]. destruct (arep_step sz vs v c Hsz A Hc) as [A' E].
    rewrite E. specialize (IH H _ _ A'). rewrite app_length in IH.
    assert (Ep : pushed (c :: cs) = match c with VAPush b => [b] | _ => [] end ++ pushed cs) by done.
    rewrite Ep, app_length, seq_app. revert IH. generalize (vec_call sz v c).1 as w. intros w IH.
    destruct c; csimpl; rewrite IH; simpl; f_equal; lia.
  - intros i b Hi. pose proof (arep_history sz cs Hsz [] _ A0 H) as A. simpl in A.
    rewrite Ev in Hi. unfold r. rewrite (arep_commit sz (pushed cs)); [by rewrite Hi|done|done|].
    by eapply lookup_lt_Some.
Qed.
Print Assumptions C28_async_pushes.
Example ex_async : Forall (async_call 2) [VAPush ex_a; VAPush ex_b; VComplete 1; VReserve 5; VAPush ex_c].
Proof. by repeat constructor. Qed.

(** Once the vector is committed, or its mode of access changed, nothing is left to do for the
    scheduler: writes that would complete later change nothing. *)
Theorem C28_settled :
  forall sz direct cs c is,
    Forall (async_call sz) cs -> c = VCommit \/ c = VDirect (negb direct) ->
    let v := (vec_calls sz (open_vec sz [] direct) (cs ++ [c])).1 in
    (vec_calls sz v (VComplete <$> is)).1 = v.
Proof.
  intros sz direct cs c is H Hc v.
  assert (HD : forall cs w, Forall (async_call sz) cs -> v_committed w = false ->
    v_committed (vec_calls sz w cs).1 = false /\ v_direct (vec_calls sz w cs).1 = v_direct w).
  { clear. induction cs as [|c cs IH]; intros w HF Hw; [done|]. apply Forall_cons in HF as [Hc HF]. cbn [vec_calls fst snd].
    assert (HS : v_committed (vec_call sz w c).1 = false /\ v_direct (vec_call sz w c).1 = v_direct w).
    { destruct c; try done; cbn [vec_call fst snd]; [unfold vec_reserve|unfold vec_complete]; [by case_bool_decide|by destruct (_ !! _)]. }
    destruct HS as [H1 H2]. rewrite <- H2. by apply IH. }
  assert (HA : forall cs cs' w, (vec_calls sz w (cs ++ cs')).1 = (vec_calls sz (vec_calls sz w cs).1 cs').1).
  { clear. induction cs as [|c cs IH]; intros cs' w; [done|]. cbn [app vec_calls fst snd]. apply IH. }
  assert (Hp : v_pending v = []).
  { unfold v. rewrite HA. destruct (HD cs (open_vec sz [] direct) H eq_refl) as [H1 H2].
    destruct Hc as [->| ->]; cbn [vec_calls vec_call fst snd].
    - unfold vec_commit. by rewrite H1.
    - unfold vec_set_direct. rewrite H2, bool_decide_eq_false_2; [done|]. cbn. by destruct direct. }
  clearbody v. clear -Hp. induction is as [|i is IH]; [done|]. rewrite fmap_cons. cbn [vec_calls vec_call fst snd].
  unfold vec_complete at 1. by rewrite Hp.
Qed.
Print Assumptions C28_settled.
Example ex_settled : Forall (async_call 2) [VAPush ex_a; VAPush ex_b; VComplete 1; VAPush ex_c] /\
  v_pending (vec_calls 2 (open_vec 2 [] false) [VAPush ex_a; VAPush ex_b; VComplete 1; VAPush ex_c]).1 = [(0, ex_a); (4, ex_c)].
Proof. split; [by repeat constructor|by vm_compute]. Qed.

(** Mixed with push_back the guarantee is lost: the synchronous push writes at the
    position of the descriptor, which asynchronous writes do not move. *)
Theorem C28_mixed_refuted :
  exists sz a b, let r := vec_calls sz (open_vec sz [] false) [VAPush a; VComplete 0; VPush true b; VCommit] in
    length a = sz /\ length b = sz /\
    r.2 = [Ok (OIdx 0); Ok OUnit; Ok (OIdx 1); Ok OUnit] /\
    vec_get sz r.1 0 = Ok b /\ a <> b.
Proof. exists 2, ex_a, ex_b. by vm_compute. Qed.
Print Assumptions C28_mixed_refuted.

(** ** C57: moving a vector. *)
(** The moved-to vector has lost the size and the commit: it says it is empty and refuses
    every synchronous and asynchronous read, although the file is unchanged... *)
Theorem C57_moved :
  forall sz v i, v_size (vec_move v) = 0 /\ v_file (vec_move v) = v_file v /\
    (exists e, vec_get sz (vec_move v) i = Throw e) /\ (exists e, vec_async_get sz (vec_move v) i = Throw e).
Proof.
  intros sz v i. split_and!; [done|done| |by eexists].
  unfold vec_get. case_bool_decide; by eexists.
Qed.
Print Assumptions C57_moved.
(** ... in particular a vector with elements is not preserved. *)
Theorem C57_move_refuted :
  exists sz v i b, v_committed v = true /\ vec_get sz v i = Ok b /\
    (exists e, vec_get sz (vec_move v) i = Throw e) /\ v_size (vec_move v) <> v_size v.
Proof.
  exists 2, (vec_calls 2 (open_vec 2 [] false) [VPush true ex_a; VPush true ex_b; VCommit]).1, 1, ex_b.
  vm_compute. split_and!; try done. by eexists.
Qed.
Print Assumptions C57_move_refuted.
