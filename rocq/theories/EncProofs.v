(** Proofs about the encoders. *)
From stdpp Require Import prelude gmap.
From Coq Require Import ZArith NArith Lia.
From Verif Require Import Base GraphModel EncModel EncSpec.
Local Open Scope nat_scope.

(** * Integers in memory *)
Lemma le_bytes_length k n : length (le_bytes k n) = k.
Proof. revert n. induction k; intros n; simpl; auto. Qed.

Lemma le_val_bytes k n : le_val (le_bytes k n) = (n mod 256 ^ N.of_nat k)%N.
Proof.
  revert n. induction k as [|k IH]; intros n.
  - simpl. by rewrite N.mod_1_r.
  - cbn [le_bytes le_val]. rewrite IH, Nat2N.inj_succ, N.pow_succ_r'.
    rewrite N.mod_mul_r; [|lia|]; [lia|]. apply N.pow_nonzero. lia.
Qed.

Lemma le_val_bytes_app k n b : le_val (take k (le_bytes k n ++ b)) = (n mod 256 ^ N.of_nat k)%N.
Proof. rewrite take_app_alt by by rewrite le_bytes_length. apply le_val_bytes. Qed.

Lemma le64_length n : length (le64 n) = 8.
Proof. apply le_bytes_length. Qed.

Lemma le64_val n : (n < 2 ^ 64)%N -> le_val (le64 n) = n.
Proof. intros H. unfold le64. rewrite le_val_bytes. apply N.mod_small. done. Qed.

Lemma le64_inj n m : (n < 2 ^ 64)%N -> (m < 2 ^ 64)%N -> le64 n = le64 m -> n = m.
Proof. intros Hn Hm E. rewrite <- (le64_val n Hn), E. by apply le64_val. Qed.

Lemma sub64_id a b : (0 <= b <= a)%Z -> (a < 2 ^ 64)%Z -> sub64 a b = (a - b)%Z.
Proof. intros H1 H2. unfold sub64. apply Z.mod_small. lia. Qed.

Global Opaque le64.

(** * Buffers *)
Lemma wr_ok buf off bs :
  off + length bs <= length buf ->
  wr buf off bs = Ok (take off buf ++ bs ++ drop (off + length bs) buf).
Proof. intros H. unfold wr. by rewrite bool_decide_true. Qed.

Lemma wr_next (pre bs buf cs : bytes) off :
  off = length pre -> length bs <= length buf ->
  wr (pre ++ buf) off bs = Ok ((pre ++ bs) ++ drop (length bs) buf).
Proof.
  intros -> H. rewrite wr_ok by (rewrite app_length; lia).
  rewrite take_app. rewrite drop_app_ge by lia.
  replace (length pre + length bs - length pre) with (length bs) by lia.
  by rewrite <- app_assoc.
Qed.

(** * The control words, when there is no padding *)
Lemma aligned_key p : aligned p -> key_entries p * kp_val p = kp_key p.
Proof.
  intros (H0 & _ & H & _). unfold key_entries. rewrite decide_True by done.
  pose proof (Nat.div_mod (kp_key p) (kp_val p)). lia.
Qed.
Lemma aligned_len p : aligned p -> len_entries p * kp_val p = 8.
Proof.
  intros (H0 & H & _). unfold len_entries. rewrite decide_True by done.
  pose proof (Nat.div_mod 8 (kp_val p)). lia.
Qed.
Lemma aligned_ctl p : aligned p -> ctl_half p * kp_val p = kp_key p + 8.
Proof.
  intros H. unfold ctl_half. pose proof (aligned_key p H). pose proof (aligned_len p H). lia.
Qed.
Lemma words_aligned p : words p -> aligned p.
Proof. intros (H1 & H2 & H3 & H4). split_and!; rewrite ?H1; auto; lia. Qed.

(** * One list *)
Definition slot_bytes (key : bytes) (vs : list bytes) : bytes :=
  le64 (N.of_nat (length vs)) ++ key ++ mjoin vs.

Lemma mjoin_length_sz sz (vs : list bytes) :
  Forall (fun v => length v = sz) vs -> length (mjoin vs) = length vs * sz.
Proof. induction 1 as [|v vs Hv _ IH]; csimpl; [done|]. rewrite app_length. lia. Qed.

Lemma slot_bytes_length p key vs :
  obj_ok p key vs -> length (slot_bytes key vs) = 8 + kp_key p + length vs * kp_val p.
Proof.
  intros [Hk Hv]. unfold slot_bytes. rewrite !app_length, le64_length, Hk.
  rewrite (mjoin_length_sz (kp_val p)) by done. lia.
Qed.

Lemma write_values_ok sz vs : forall pre buf base off,
  base + off = length pre ->
  Forall (fun v => length v = sz) vs -> length (mjoin vs) <= length buf ->
  write_values sz (pre ++ buf) base off vs =
  Ok ((pre ++ mjoin vs) ++ drop (length (mjoin vs)) buf, off + length (mjoin vs)).
Proof.
  induction vs as [|v vs IH]; intros pre buf base off Hoff Hsz Hlen; csimpl.
  - rewrite drop_0, app_nil_r. do 2 f_equal. lia.
  - apply Forall_cons in Hsz as [Hv Hsz]. csimpl in Hlen. rewrite app_length in Hlen.
    rewrite wr_next; [|done|done|lia]. cbn [rbind].
    rewrite IH; [|rewrite app_length; lia|done|rewrite drop_length; lia].
    rewrite drop_drop, app_length, <- !app_assoc. do 2 f_equal. lia.
Qed.

Lemma room_le p n x : room p n x <= n.
Proof. unfold room. lia. Qed.

Lemma kept_length p q : length (kept p q) = room p (length (pt_vals q)) (ai_mine (pt_ai q)).
Proof.
  unfold kept. pose proof (room_le p (length (pt_vals q)) (ai_mine (pt_ai q))).
  destruct (ai_dir _); [rewrite take_length|rewrite drop_length]; lia.
Qed.

Lemma kept_obj p q : part_ok p q -> obj_ok p (pt_key q) (kept p q).
Proof.
  intros [[Hk Hv] _]. split; [done|]. unfold kept.
  destruct (ai_dir _); [by apply Forall_take|by apply Forall_drop].
Qed.

(** Bytes that a part occupies in the page. *)
Definition part_bytes (p : eparams) (q : part) : bytes :=
  if bool_decide (ai_mine (pt_ai q) <= Z.of_nat (ctl_half p))%Z then []
  else slot_bytes (pt_key q) (kept p q).

Lemma encode_ok p q pre buf :
  aligned p -> part_ok p q -> length (part_bytes p q) <= length buf ->
  encode p (pre ++ buf) (length pre) (pt_key q) (pt_vals q) (pt_ai q) =
  Ok ((pre ++ part_bytes p q) ++ drop (length (part_bytes p q)) buf, length (part_bytes p q)).
Proof.
  intros Hal Hq Hlen. pose proof (kept_obj p q Hq) as Hko. pose proof (kept_length p q) as Hkl.
  destruct Hq as [[Hk Hv] (Hai & H0 & H1 & H2 & H3)].
  unfold encode, part_bytes in *. case_bool_decide as Hm.
  { simpl. by rewrite app_nil_r, drop_0. }
  rewrite (sub64_id (ai_len (pt_ai q))) by lia.
  rewrite (sub64_id (ai_mine (pt_ai q))) by lia.
  assert (En : Z.min (ai_mine (pt_ai q) - Z.of_nat (ctl_half p))
                     (ai_len (pt_ai q) - Z.of_nat (list_control p)) =
               Z.of_nat (room p (length (pt_vals q)) (ai_mine (pt_ai q)))).
  { unfold room. lia. }
  rewrite En. unfold sublist_of.
  rewrite bool_decide_true by (pose proof (room_le p (length (pt_vals q)) (ai_mine (pt_ai q))); lia).
  rewrite Nat2Z.id.
  assert (Es : (match ai_dir (pt_ai q) with
     | Incoming => Ok (take (room p (length (pt_vals q)) (ai_mine (pt_ai q))) (pt_vals q))
     | Outgoing => Ok (drop (length (pt_vals q) - room p (length (pt_vals q)) (ai_mine (pt_ai q))) (pt_vals q))
     end) = Ok (kept p q)).
  { unfold kept. by destruct (ai_dir _). }
  rewrite Es. cbn [rbind]. rewrite <- Hkl.
  pose proof (slot_bytes_length _ _ _ Hko) as Hsl. rewrite Hsl in Hlen.
  rewrite <- nat_N_Z, N2Z.id.
  rewrite wr_next by (rewrite ?le64_length; auto; lia). cbn [rbind].
  rewrite le64_length.
  rewrite (bool_decide_false (8 < _)) by (rewrite aligned_len by done; lia). cbn [rbind fst snd].
  rewrite wr_next; [|done|rewrite app_length, le64_length; lia|rewrite drop_length; lia].
  cbn [rbind]. rewrite (bool_decide_false (_ < _)) by (rewrite aligned_ctl by done; lia).
  cbn [rbind fst snd]. rewrite drop_drop, Hk.
  assert (Hmj : length (mjoin (kept p q)) = length (kept p q) * kp_val p).
  { apply mjoin_length_sz, Hko. }
  rewrite write_values_ok; [| |apply Hko|rewrite drop_length; lia].
  - unfold slot_bytes. rewrite drop_drop, !app_length, le64_length, <- !app_assoc, Hk.
    repeat f_equal; lia.
  - rewrite !app_length, le64_length. lia.
Qed.

(** * A page *)
Definition parts_bytes (p : eparams) (qs : list part) : bytes :=
  mjoin (part_bytes p <$> qs).

Lemma encode_parts_ok p qs : forall pre buf,
  aligned p -> Forall (part_ok p) qs -> length (parts_bytes p qs) <= length buf ->
  encode_parts p (pre ++ buf) (length pre) qs =
  Ok ((pre ++ parts_bytes p qs) ++ drop (length (parts_bytes p qs)) buf,
      length pre + length (parts_bytes p qs)).
Proof.
  unfold parts_bytes. induction qs as [|q qs IH]; intros pre buf Hal Hqs Hlen; csimpl.
  - rewrite drop_0, app_nil_r. do 2 f_equal. lia.
  - apply Forall_cons in Hqs as [Hq Hqs]. csimpl in Hlen. rewrite app_length in Hlen.
    rewrite encode_ok by (auto; lia). cbn [rbind fst snd].
    rewrite <- (app_length pre). rewrite IH by (auto; rewrite drop_length; lia).
    rewrite drop_drop, !app_length, <- !app_assoc. do 2 f_equal. lia.
Qed.

Lemma finish_block_ok pre buf :
  finish_block (pre ++ buf) (length pre) (length buf) =
  Ok (pre ++ replicate (length buf) 0%N, length buf).
Proof.
  unfold finish_block. case_bool_decide as H.
  - destruct buf; [|done]. done.
  - rewrite wr_next by (rewrite ?replicate_length; auto). cbn [rbind].
    rewrite replicate_length, drop_all, app_nil_r. done.
Qed.

Lemma encode_page_ok p qs :
  aligned p -> Forall (part_ok p) qs -> length (parts_bytes p qs) <= kp_page p ->
  encode_page p qs =
  Ok (parts_bytes p qs ++ replicate (kp_page p - length (parts_bytes p qs)) 0%N).
Proof.
  intros Hal Hqs Hlen. unfold encode_page.
  pose proof (encode_parts_ok p qs [] (replicate (kp_page p) 255%N) Hal Hqs) as E.
  rewrite replicate_length in E. specialize (E Hlen). simpl in E. rewrite E. cbn [rbind fst snd].
  rewrite drop_replicate.
  pose proof (finish_block_ok (parts_bytes p qs)
    (replicate (kp_page p - length (parts_bytes p qs)) 255%N)) as F.
  rewrite replicate_length in F. rewrite F. done.
Qed.

(** A part never needs more room than it was granted. *)
Lemma part_bytes_le p q :
  aligned p -> part_ok p q ->
  (Z.of_nat (length (part_bytes p q)) <= ai_mine (pt_ai q) * Z.of_nat (kp_val p))%Z.
Proof.
  intros Hal Hq. unfold part_bytes. case_bool_decide as Hm.
  - destruct Hq as [_ (_ & H0 & _)]. simpl. lia.
  - rewrite (slot_bytes_length p) by by apply kept_obj. rewrite kept_length.
    pose proof (aligned_ctl p Hal).
    assert (Hr : room p (length (pt_vals q)) (ai_mine (pt_ai q)) + ctl_half p
                 <= Z.to_nat (ai_mine (pt_ai q))) by (unfold room; lia).
    assert ((room p (length (pt_vals q)) (ai_mine (pt_ai q)) + ctl_half p) * kp_val p
            <= Z.to_nat (ai_mine (pt_ai q)) * kp_val p) by (by apply Nat.mul_le_mono_r).
    nia.
Qed.

Lemma parts_bytes_le p qs :
  aligned p -> Forall (part_ok p) qs ->
  (Z.of_nat (length (parts_bytes p qs)) <= granted qs * Z.of_nat (kp_val p))%Z.
Proof.
  intros Hal. induction 1 as [|q qs Hq _ IH]; [simpl; lia|].
  unfold parts_bytes in *. csimpl. rewrite app_length.
  pose proof (part_bytes_le p q Hal Hq). unfold granted in *. simpl. lia.
Qed.

(** * Decoding *)
Lemma rd_app pre mid post off n :
  off = N.of_nat (length pre) -> n = N.of_nat (length mid) ->
  rd (pre ++ mid ++ post) off n = Ok mid.
Proof.
  intros -> ->. unfold rd. rewrite bool_decide_true by (rewrite !app_length; lia).
  rewrite !Nat2N.id, drop_app, take_app. done.
Qed.

Lemma chunks_mjoin sz vs :
  Forall (fun v => length v = sz) vs -> chunks sz (length vs) (mjoin vs) = vs.
Proof.
  induction 1 as [|v vs Hv _ IH]; csimpl; [done|].
  rewrite take_app_alt, drop_app_alt by done. by rewrite IH.
Qed.

Lemma chunks_app sz n a b : length a = n * sz -> chunks sz n (a ++ b) = chunks sz n a.
Proof.
  revert a. induction n as [|n IH]; intros a H; [done|]. simpl in *.
  rewrite take_app_le by lia. rewrite drop_app_le by lia. f_equal. apply IH.
  rewrite drop_length. lia.
Qed.

(** The slots actually present in a page. *)
Definition written (p : eparams) (q : part) : Prop :=
  (Z.of_nat (ctl_half p) < ai_mine (pt_ai q))%Z.

Global Instance written_dec p q : Decision (written p q).
Proof. unfold written. apply _. Defined.

Lemma kept_nonempty p q :
  part_ok p q -> written p q -> pt_vals q <> [] -> kept p q <> [].
Proof.
  intros Hq Hw Hv E. assert (length (kept p q) = 0) by by rewrite E.
  rewrite kept_length in H. unfold room, written in *. destruct (pt_vals q); [done|]. simpl in H. lia.
Qed.

Lemma kept_unwritten p q : ~ written p q -> kept p q = [].
Proof.
  intros Hw. apply nil_length_inv. rewrite kept_length. unfold room, written in *. lia.
Qed.

(** What may follow the lists in a page: nothing, or a null length. *)
Definition stops (b : bytes) : Prop := b = [] \/ exists b', b = replicate 8 0%N ++ b'.

Lemma decode_stop p key pre tail fuel :
  stops tail -> 0 < fuel ->
  decode_loop fuel p key (pre ++ tail) (N.of_nat (length pre)) = Ok [].
Proof.
  intros Hz Hf. destruct fuel as [|fuel]; [lia|]. cbn [decode_loop].
  case_bool_decide as Hlt; [|done].
  rewrite app_length in Hlt. destruct Hz as [->|[b' ->]]; [simpl in Hlt; lia|].
  rewrite rd_app by (rewrite ?replicate_length; auto). cbn [rbind].
  rewrite bool_decide_true by done. done.
Qed.

Lemma stops_zeros z : (z = 0 \/ 8 <= z) -> stops (replicate z 0%N).
Proof.
  intros [->|Hz]; [by left|right]. exists (replicate (z - 8) 0%N).
  rewrite <- replicate_add. f_equal. lia.
Qed.

Lemma decode_parts_ok p key qs : forall pre tail fuel,
  aligned p -> Forall (part_ok p) qs -> Forall (fun q => pt_vals q <> []) qs ->
  (Z.of_nat (length pre + length (parts_bytes p qs) + length tail) = Z.of_nat (kp_page p))%Z ->
  stops tail -> NoDup (pt_key <$> qs) -> length (parts_bytes p qs) < fuel ->
  decode_loop fuel p key (pre ++ parts_bytes p qs ++ tail) (N.of_nat (length pre))
  = Ok (lookup_parts p key qs).
Proof.
  intros pre tail fuel Hal. revert pre fuel.
  induction qs as [|q qs IH]; intros pre fuel Hqs Hne Hlen Hz Hnd Hf.
  { unfold parts_bytes, lookup_parts. csimpl. apply decode_stop; auto with lia. }
  apply Forall_cons in Hqs as [Hq Hqs]. apply Forall_cons in Hne as [Hv Hne].
  csimpl in Hnd. apply NoDup_cons in Hnd as [Hnin Hnd].
  assert (El : lookup_parts p key (q :: qs) =
               if decide (pt_key q = key) then kept p q else lookup_parts p key qs).
  { unfold lookup_parts. simpl. case_decide; [done|].
    destruct (list_find _ qs) as [[i x]|]; done. }
  unfold parts_bytes in *. csimpl in *. rewrite app_length in *.
  destruct (decide (written p q)) as [Hw|Hw].
  2:{ assert (Eb : part_bytes p q = []).
      { unfold part_bytes. rewrite bool_decide_true; [done|]. unfold written in Hw. lia. }
      rewrite Eb in *. simpl in *. rewrite IH by auto. rewrite El. case_decide as Hk; [|done].
      rewrite kept_unwritten by done. unfold lookup_parts.
      destruct (list_find _ qs) as [[i x]|] eqn:Ef; [|done].
      apply list_find_Some in Ef as (Hi & Hx & _). exfalso. apply Hnin. rewrite Hk, <- Hx.
      apply elem_of_list_fmap. exists x. split; [done|]. by eapply elem_of_list_lookup_2. }
  assert (Eb : part_bytes p q = slot_bytes (pt_key q) (kept p q)).
  { unfold part_bytes. rewrite bool_decide_false; [done|]. unfold written in Hw. lia. }
  rewrite Eb in *. pose proof (kept_obj p q Hq) as Hko.
  pose proof (slot_bytes_length p _ _ Hko) as Hsl.
  pose proof (kept_nonempty p q Hq Hw Hv) as Hkn.
  assert (Hkl : 0 < length (kept p q)) by (destruct (kept p q); [done|simpl; lia]).
  destruct Hal as (Ht & H8 & HK & HP).
  destruct fuel as [|fuel]; [lia|]. cbn [decode_loop].
  rewrite bool_decide_true by (rewrite !app_length; lia).
  unfold slot_bytes at 1. rewrite <- !app_assoc.
  rewrite rd_app by (rewrite ?le64_length; auto). cbn [rbind].
  assert (Hb : (N.of_nat (length (kept p q)) < 2 ^ 64)%N) by nia.
  rewrite le64_val by done. rewrite bool_decide_false by lia.
  rewrite (app_assoc pre).
  unfold slot_bytes at 1. rewrite <- !app_assoc. rewrite (app_assoc pre).
  rewrite rd_app; [|rewrite app_length, le64_length; lia|f_equal; symmetry; apply Hko].
  cbn [rbind]. rewrite El. case_bool_decide as Hk.
  - rewrite decide_True by done. unfold slot_bytes at 1. rewrite <- !app_assoc.
    rewrite (app_assoc pre), (app_assoc (pre ++ _)).
    rewrite rd_app.
    + cbn [rbind]. rewrite Nat2N.id, chunks_mjoin by apply Hko. done.
    + rewrite !app_length, le64_length. destruct Hko as [-> _]. lia.
    + rewrite (mjoin_length_sz (kp_val p)) by apply Hko. lia.
  - rewrite decide_False by done.
    rewrite N.mod_small by nia.
    rewrite !app_assoc, <- (app_assoc (pre ++ _)).
    replace (N.of_nat (length pre) + 8 + N.of_nat (kp_key p) +
             N.of_nat (length (kept p q)) * N.of_nat (kp_val p))%N
      with (N.of_nat (length (pre ++ slot_bytes (pt_key q) (kept p q)))).
    2:{ rewrite app_length. lia. }
    apply IH; auto; rewrite ?app_length; lia.
Qed.

(** A page whose empty lists, if any, come last. *)
Definition empties_last (qs : list part) : Prop :=
  exists q1 q2, qs = q1 ++ q2 /\ Forall (fun q => pt_vals q <> []) q1 /\
    Forall (fun q => pt_vals q = []) q2.

Lemma parts_bytes_app p q1 q2 : parts_bytes p (q1 ++ q2) = parts_bytes p q1 ++ parts_bytes p q2.
Proof. unfold parts_bytes. induction q1 as [|q q1 IH]; csimpl; [done|]. by rewrite IH, app_assoc. Qed.

Lemma kept_empty p q : pt_vals q = [] -> kept p q = [].
Proof. intros H. unfold kept. rewrite H. destruct (ai_dir _); [by rewrite take_nil|by rewrite drop_nil]. Qed.

Lemma stops_empties p qs tail :
  Forall (fun q => pt_vals q = []) qs -> stops tail -> stops (parts_bytes p qs ++ tail).
Proof.
  intros H Ht. induction H as [|q qs Hq _ IH]; [done|].
  unfold parts_bytes in *. csimpl. unfold part_bytes. case_bool_decide; [done|].
  right. unfold slot_bytes. rewrite kept_empty by done. rewrite <- !app_assoc. by eexists.
Qed.

Lemma lookup_parts_app_empty p key q1 q2 :
  Forall (fun q => pt_vals q = []) q2 -> lookup_parts p key (q1 ++ q2) = lookup_parts p key q1.
Proof.
  intros H. unfold lookup_parts. destruct (list_find _ q1) as [[i x]|] eqn:E.
  - erewrite list_find_app_l by done. done.
  - rewrite list_find_app_r by done. destruct (list_find _ q2) as [[j y]|] eqn:F; simpl; [|done].
    apply list_find_Some in F as (F & _). apply kept_empty.
    rewrite Forall_forall in H. apply H. by eapply elem_of_list_lookup_2.
Qed.

Lemma decode_page_ok p key qs :
  aligned p -> Forall (part_ok p) qs -> empties_last qs ->
  NoDup (pt_key <$> qs) -> length (parts_bytes p qs) <= kp_page p ->
  (kp_page p - length (parts_bytes p qs) = 0 \/ 8 <= kp_page p - length (parts_bytes p qs)) ->
  decode_single p key (parts_bytes p qs ++ replicate (kp_page p - length (parts_bytes p qs)) 0%N)
  = Ok (lookup_parts p key qs).
Proof.
  intros Hal Hqs (q1 & q2 & -> & Hne & Hem) Hnd Hlen Hz. unfold decode_single.
  rewrite fmap_app in Hnd. apply NoDup_app in Hnd as (Hnd & _).
  apply Forall_app in Hqs as [Hq1 Hq2].
  rewrite parts_bytes_app, app_length in *. rewrite <- app_assoc.
  rewrite lookup_parts_app_empty by done.
  match goal with |- decode_loop ?f _ _ (_ ++ ?t) _ = _ =>
    apply (decode_parts_ok p key q1 [] t f) end; auto; simpl; rewrite ?app_length, ?replicate_length;
    try lia. by apply stops_empties, stops_zeros.
Qed.
