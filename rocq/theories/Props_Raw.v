(** Final theorems about the wrappers of RocksDB down to the bytes (C108 to C110). *)
From stdpp Require Import prelude gmap.
From Coq Require Import NArith Lia.
From Verif Require Import Base EncModel EncProofs KvModel RawModel RawSpec.
Local Open Scope N_scope.

(** * Counters *)
Lemma copy_exact v : copy_out (length v) v = Ok v.
Proof. unfold copy_out. rewrite (proj2 (Nat.leb_le _ _)) by lia. by rewrite take_app. Qed.
Lemma copy_le k x : copy_out k (le_bytes k x) = Ok (le_bytes k x).
Proof. pose proof (copy_exact (le_bytes k x)) as H. by rewrite le_bytes_length in H. Qed.
Lemma le_val4 x : x < 2 ^ 32 -> le_val (le_bytes 4 x) = x.
Proof. intros H. rewrite le_val_bytes. change (256 ^ N.of_nat 4) with (2 ^ 32). by apply N.mod_small. Qed.
Lemma rc_get_le (db : raw) key x : db !! key = Some (le_bytes 4 x) -> x < 2 ^ 32 -> rc_get db key = Ok (Some x).
Proof. intros H Hx. unfold rc_get. rewrite H, copy_le. cbn [rbind]. by rewrite le_val4. Qed.

(** The database holds the four bytes of each value. *)
Definition holds (db : raw) (f : bytes -> option N) : Prop :=
  forall key, db !! key = le_bytes 4 <$> f key /\ forall x, f key = Some x -> x < 2 ^ 32.
Lemma rc_get_holds db f key : holds db f -> rc_get db key = Ok (f key).
Proof.
  intros H. destruct (H key) as [H1 H2]. destruct (f key) as [x|]; simpl in H1.
  - apply rc_get_le; auto.
  - unfold rc_get. by rewrite H1.
Qed.
Lemma holds_insert db f key x (g : bytes -> option N) : holds db f -> x < 2 ^ 32 ->
  (forall k, g k = if decide (key = k) then Some x else f k) -> holds (<[key := le_bytes 4 x]> db) g.
Proof.
  intros H Hx Hg k. rewrite Hg. case_decide as E.
  - subst. rewrite lookup_insert. split; [done|]. by intros ? [= <-].
  - rewrite lookup_insert_ne by done. apply H.
Qed.
Lemma rc_call_ok db f c : holds db f -> r32 c ->
  exists db' o, rc_call db c = Ok (db', o) /\ holds db' (fun key => counts key (f key) c) /\
    o = match c with RGet k => f k | RGetInc k => counts k (f k) c | _ => None end.
Proof.
  intros H Hc. destruct c as [k|k|k d|k x|k]; cbn [rc_call].
  - rewrite (rc_get_holds _ _ k H). by do 2 eexists.
  - unfold rc_get_and_increment. rewrite (rc_get_holds _ _ k H). do 2 eexists. split; [done|]. cbn [fst snd]. split.
    + eapply holds_insert; [exact H| |intros k'; cbn [counts]; case_decide; [by subst|done]]. destruct (f k); [by apply N.mod_lt|done].
    + cbn [counts]. by rewrite decide_True by done.
  - unfold rc_increment. rewrite (rc_get_holds _ _ k H). do 2 eexists. split; [done|]. split; [|done].
    eapply holds_insert; [exact H| |intros k'; cbn [counts]; case_decide; [by subst|done]]. destruct (f k); [by apply N.mod_lt|done].
  - do 2 eexists. split; [done|]. split; [|done]. eapply holds_insert; [exact H|done|intros; done].
  - do 2 eexists. split; [done|]. split; [|done]. intros key. cbn [counts]. unfold rc_remove. case_decide as E.
    + subst. by rewrite lookup_delete.
    + rewrite lookup_delete_ne by done. apply H.
Qed.

(** ** C108: counters as bytes. *)
(** Whatever the calls made on a new database, no byte is read outside of the strings, the
    answers are those of counters modulo 2^32, and the values stored are their four bytes. *)
Theorem C108_counters :
  forall cs, Forall r32 cs ->
    exists db outs, rc_calls ∅ cs = Ok (db, outs) /\ length outs = length cs /\
      (forall i c, cs !! i = Some c -> outs !! i = Some (answer_after (take i cs) c)) /\
      forall key, db !! key = le_bytes 4 <$> value_after key cs.
Proof.
  assert (H : forall cs past db, holds db (fun key => value_after key past) -> Forall r32 cs ->
    exists db' outs, rc_calls db cs = Ok (db', outs) /\ length outs = length cs /\
      (forall i c, cs !! i = Some c -> outs !! i = Some (answer_after (past ++ take i cs) c)) /\
      holds db' (fun key => value_after key (past ++ cs))).
  { induction cs as [|c cs IH]; intros past db Hdb Hcs.
    - exists db, []. split_and!; [done|done|done|by rewrite app_nil_r].
    - apply Forall_cons in Hcs as [Hc Hcs]. destruct (rc_call_ok _ _ _ Hdb Hc) as (db1 & o & E1 & H1 & Ho).
      destruct (IH (past ++ [c]) db1) as (db2 & outs & E2 & Hl & Ha & H2); [|done|].
      { intros key. destruct (H1 key) as [A1 A2]. unfold value_after. rewrite foldl_app. done. }
      exists db2, (o :: outs). cbn [rc_calls]. rewrite E1. cbn [rbind fst snd]. rewrite E2. cbn [rbind fst snd].
      rewrite cons_middle, app_assoc. split_and!; [done|simpl; by rewrite Hl| |done].
      intros [|i] c' Hi.
      + injection Hi as <-. simpl. f_equal. rewrite Ho, app_nil_r. destruct c; try done.
        unfold answer_after, value_after. by rewrite foldl_app.
      + simpl in Hi. simpl. rewrite (Ha i c' Hi). f_equal. by rewrite <- app_assoc. }
  intros cs Hcs. destruct (H cs [] ∅) as (db & outs & E & Hl & Ha & Hd); [|done|].
  - intros key. unfold value_after. simpl. by rewrite lookup_empty.
  - exists db, outs. split_and!; [done|done|exact Ha|]. intros key. apply Hd.
Qed.
Print Assumptions C108_counters.
Example C108_example :
  exists db, rc_calls ∅ [RGetInc [1]; RGet [2]; RSet [2] 4294967295; RGetInc [2]; RGetInc [1]; RInc [3] 7; RRemove [1]; RGet [1]; RGet [3]] =
    Ok (db, [Some 0; None; None; Some 0; Some 1; None; None; None; Some 7]) /\
    db !! [1] = None /\ db !! [2] = Some [0; 0; 0; 0] /\ db !! [3] = Some [7; 0; 0; 0].
Proof. eexists. split; [vm_compute; reflexivity|]. split_and!; by vm_compute. Qed.

(** The counters of the other models (maps of numbers) are this database. *)
Theorem C108_refines :
  forall (m : gmap bytes N) key, map_Forall (fun _ x => x < 2 ^ 32) m ->
    let db := le_bytes 4 <$> m in
    rc_get db key = Ok (ctr_get m key) /\
    rc_get_and_increment db key = Ok (le_bytes 4 <$> (ctr_get_and_increment m key).1, (ctr_get_and_increment m key).2) /\
    (forall d, rc_increment db key d = Ok (le_bytes 4 <$> ctr_increment m key d)) /\
    (forall x, x < 2 ^ 32 -> rc_set db key x = le_bytes 4 <$> ctr_set m key x) /\
    rc_remove db key = le_bytes 4 <$> ctr_remove m key.
Proof.
  intros m key Hm db.
  assert (Hg : rc_get db key = Ok (ctr_get m key)).
  { unfold rc_get, ctr_get, db. rewrite lookup_fmap. destruct (m !! key) as [x|] eqn:E; cbn [fmap option_fmap option_map]; [|done].
    rewrite copy_le. cbn [rbind]. by rewrite (le_val4 x) by exact (Hm key x E). }
  split_and!; [done|..].
  - unfold rc_get_and_increment. rewrite Hg. cbn [rbind]. unfold ctr_get_and_increment, ctr_get. cbn [fst snd].
    unfold db. rewrite fmap_insert. unfold next_value, incr32. done.
  - intros d. unfold rc_increment. rewrite Hg. cbn [rbind]. unfold ctr_increment, ctr_get, incr32, db. by rewrite fmap_insert.
  - intros x Hx. unfold rc_set, ctr_set, db. by rewrite fmap_insert, N.mod_small.
  - unfold rc_remove, ctr_remove, db. by rewrite fmap_delete.
Qed.
Print Assumptions C108_refines.
Example C108_refines_example :
  let m : gmap bytes N := {[ [1] := 4294967295; [2] := 7 ]} in
  map_Forall (fun _ x => x < 2 ^ 32) m /\ (ctr_get_and_increment m [1]).2 = 0 /\ (ctr_get_and_increment m [2]).2 = 8.
Proof.
  cbn zeta. split_and!; [|by vm_compute|by vm_compute].
  apply map_Forall_insert_2; [done|]. by apply map_Forall_singleton.
Qed.

(** A database written by something else: what is read, according to the length of the
    value. *)
Theorem C108_foreign :
  forall (db : raw) key v, db !! key = Some v ->
    rc_get db key = match (length v)%nat with
                    | 0%nat | 1%nat | 2%nat => UB
                    | 3%nat => Ok (Some (le_val v))
                    | _ => Ok (Some (le_val (take 4 v)))
                    end.
Proof.
  intros db key v H. unfold rc_get. rewrite H. do 4 (destruct v as [|? v]; [done|]). done.
Qed.
Print Assumptions C108_foreign.
Theorem C108_foreign_refuted : exists (db : raw) key, rc_get_and_increment db key = UB /\ is_Some (db !! key).
Proof. exists {[ [1] := [9; 9] ]}, [1]. split; [by vm_compute|by eexists]. Qed.
Print Assumptions C108_foreign_refuted.

(** ** C109: typed stores and lists. *)
Lemma stored_snoc key cs c : stored key (cs ++ [c]) =
  if decide (is_write c = true /\ w_key c = key) then match c with WPut _ d => Some d | _ => None end else stored key cs.
Proof.
  unfold stored. rewrite filter_app. case_decide as H.
  - rewrite (filter_cons_True _ c []) by done. by rewrite last_app.
  - rewrite (filter_cons_False _ c []) by done. by rewrite app_nil_r.
Qed.
Lemma ptr_key_ok mem len : len < 256 -> (N.to_nat len <= length mem)%nat -> ptr_key mem len = Ok (take (N.to_nat len) mem).
Proof. intros H1 H2. unfold ptr_key. rewrite N.mod_small by done. by rewrite (proj2 (Nat.leb_le _ _)). Qed.

(** What a call answers after any calls on a new database, whatever the sizes of the keys and
    of the objects: the beginning of what was stored last, or nothing. *)
Theorem C109_store :
  forall cs db outs c, Forall ptr_ok cs -> ptr_ok c -> w_calls ∅ cs = Ok (db, outs) ->
    let v := stored (w_key c) cs in
    match c with
    | WGetStr _ => w_call db c = Ok (db, v)
    | WGet _ size | WGetPtr _ _ size =>
        w_call db c = match v with
                      | None => Ok (db, None)
                      | Some d => if decide (size <= length d)%nat then Ok (db, Some (take size d))
                                  else if decide (size = length d + 1)%nat then Ok (db, Some (d ++ [0])) else UB
                      end
    | _ => exists db', w_call db c = Ok (db', None) /\ forall key, db' !! key = stored key (cs ++ [c])
    end.
Proof.
  assert (Hget : forall (db : raw) key size, (match db !! key with Some v => b <~ copy_out size v; Ok (db, Some b) | None => Ok (db, None) end)
    = match db !! key with
      | None => Ok (db, None)
      | Some d => if decide (size <= length d)%nat then Ok (db, Some (take size d))
                  else if decide (size = length d + 1)%nat then Ok (db, Some (d ++ [0])) else UB
      end).
  { intros db key size. destruct (db !! key) as [d|]; [|done]. unfold copy_out. repeat case_decide.
    - rewrite (proj2 (Nat.leb_le _ _)) by lia. simpl. by rewrite take_app_le.
    - subst. rewrite (proj2 (Nat.leb_le _ _)) by lia. simpl. rewrite take_ge; [done|]. rewrite app_length. simpl. lia.
    - rewrite (proj2 (Nat.leb_gt _ _)) by lia. done. }
  assert (Hw : forall (db : raw) cs c, (forall key, db !! key = stored key cs) -> ptr_ok c -> is_write c = true ->
    exists db', w_call db c = Ok (db', None) /\ forall key, db' !! key = stored key (cs ++ [c])).
  { intros db cs c Hdb Hc Hcw. destruct c as [k|k s|mem len s|k d|k|mem len]; try done; cbn [w_call].
    - eexists. split; [done|]. intros key. rewrite stored_snoc. cbn [is_write w_key]. case_decide as E.
      + destruct E as [_ <-]. by rewrite lookup_insert.
      + rewrite lookup_insert_ne; [apply Hdb|]. intros ->. by apply E.
    - eexists. split; [done|]. intros key. rewrite stored_snoc. cbn [is_write w_key]. case_decide as E.
      + destruct E as [_ <-]. by rewrite lookup_delete.
      + rewrite lookup_delete_ne; [apply Hdb|]. intros ->. by apply E.
    - destruct Hc as [H1 H2]. rewrite ptr_key_ok by done. cbn [rbind]. eexists. split; [done|]. intros key. rewrite stored_snoc.
      cbn [is_write w_key]. case_decide as E.
      + destruct E as [_ <-]. by rewrite lookup_delete.
      + rewrite lookup_delete_ne; [apply Hdb|]. intros E2. by apply E. }
  assert (Hrun : forall cs past db db' outs, (forall key, db !! key = stored key past) -> Forall ptr_ok cs ->
    w_calls db cs = Ok (db', outs) -> forall key, db' !! key = stored key (past ++ cs)).
  { induction cs as [|c cs IH]; intros past db db' outs Hdb Hcs E.
    - injection E as <- <-. by rewrite app_nil_r.
    - apply Forall_cons in Hcs as [Hc Hcs]. cbn [w_calls] in E. apply rbind_ok in E as ([db1 o] & E1 & E).
      apply rbind_ok in E as ([db2 outs'] & E2 & E). injection E as <- <-. cbn [fst] in *.
      rewrite cons_middle, app_assoc. eapply IH; [|exact Hcs|exact E2]. destruct (is_write c) eqn:Ew.
      + destruct (Hw db past c Hdb Hc Ew) as (db1' & E1' & H). rewrite E1 in E1'. by injection E1' as <- _.
      + intros key. rewrite stored_snoc, decide_False by (rewrite Ew; by intros []). rewrite <- Hdb.
        assert (db1 = db) as ->; [|done]. destruct c as [k|k s|mem len s|k d|k|mem len]; try done; cbn [w_call] in E1.
        * by injection E1.
        * destruct (db !! k); [apply rbind_ok in E1 as (? & _ & E1)|]; by injection E1.
        * apply rbind_ok in E1 as (k & _ & E1). destruct (db !! k); [apply rbind_ok in E1 as (? & _ & E1)|]; by injection E1. }
  intros cs db outs c Hcs Hc E v.
  assert (Hdb : forall key, db !! key = stored key cs) by (eapply (Hrun cs [] ∅); [intros key; by rewrite lookup_empty|done|exact E]).
  destruct c as [k|k s|mem len s|k d|k|mem len]; try (by apply Hw).
  - unfold v. cbn. by rewrite Hdb.
  - cbn [w_call]. rewrite Hget, Hdb. done.
  - cbn [w_call]. destruct Hc as [H1 H2]. rewrite ptr_key_ok by done. cbn [rbind]. rewrite Hget, Hdb. done.
Qed.
Print Assumptions C109_store.

(** With objects of one size, nothing is undefined and every get answers the data of the
    last put. *)
Theorem C109_typed :
  forall size cs, Forall ptr_ok cs -> Forall (typed size) cs ->
    exists db outs, w_calls ∅ cs = Ok (db, outs) /\ length outs = length cs /\
      forall i c, cs !! i = Some c -> outs !! i = Some (found_after (take i cs) c).
Proof.
  intros size cs. induction cs as [|c cs IH] using rev_ind; intros Hp Ht; [by exists ∅, []|].
  apply Forall_app in Hp as [Hp Hc]. apply Forall_cons_1 in Hc as [Hc _]. apply Forall_app in Ht as [Ht Htc]. apply Forall_cons_1 in Htc as [Htc _].
  destruct (IH Hp Ht) as (db & outs & E & Hl & Ha).
  assert (Hsize : forall key d, stored key cs = Some d -> length d = size).
  { intros key d Hs. unfold stored in Hs. destruct (last _) as [c'|] eqn:El; [|done]. apply last_Some_elem_of in El.
    apply elem_of_list_filter in El as [_ El]. rewrite Forall_forall in Ht. specialize (Ht c' El). destruct c'; try done. by injection Hs as <-. }
  pose proof (C109_store cs db outs c Hp Hc E) as Hs. cbn zeta in Hs.
  assert (Hc' : exists db', w_call db c = Ok (db', found_after cs c)).
  { unfold found_after. destruct c as [k|k s|mem len s|k d|k|mem len]; cbn [is_write typed] in *; cbn [w_key] in *.
    - eexists. exact Hs.
    - subst s. rewrite Hs. destruct (stored k cs) as [d|] eqn:Ed; [|by eexists]. pose proof (Hsize _ _ Ed) as Hd. subst size.
      rewrite decide_True by done. eexists. by rewrite take_ge.
    - subst s. rewrite Hs. destruct (stored (take (N.to_nat len) mem) cs) as [d|] eqn:Ed; [|by eexists]. pose proof (Hsize _ _ Ed) as Hd. subst size.
      rewrite decide_True by done. eexists. by rewrite take_ge.
    - destruct Hs as (db' & Hs & _). by eexists.
    - destruct Hs as (db' & Hs & _). by eexists.
    - destruct Hs as (db' & Hs & _). by eexists. }
  destruct Hc' as [db' Hc'].
  assert (Happ : forall cs1 db0 db1 outs1, w_calls db0 cs1 = Ok (db1, outs1) -> forall db2 o, w_call db1 c = Ok (db2, o) ->
    w_calls db0 (cs1 ++ [c]) = Ok (db2, outs1 ++ [o])).
  { induction cs1 as [|c1 cs1 IH1]; intros db0 db1 outs1 E1 db2 o E2.
    - injection E1 as <- <-. cbn. rewrite E2. done.
    - cbn [w_calls app] in *. apply rbind_ok in E1 as ([da oa] & Ea & E1). apply rbind_ok in E1 as ([dc outs'] & Eb & E1).
      injection E1 as <- <-. rewrite Ea. cbn [rbind fst snd] in *. by rewrite (IH1 _ _ _ Eb _ _ E2). }
  exists db', (outs ++ [found_after cs c]). split_and!.
  - by eapply Happ.
  - rewrite !app_length. simpl. lia.
  - intros i c' Hi. destruct (decide (i < length cs)%nat) as [Hlt|Hge].
    + rewrite lookup_app_l in Hi by done. rewrite lookup_app_l by lia. rewrite take_app_le by lia. by apply Ha.
    + assert (i = length cs) as -> by (apply lookup_lt_Some in Hi; rewrite app_length in Hi; simpl in Hi; lia).
      rewrite list_lookup_middle in Hi by done. injection Hi as <-. rewrite take_app. by rewrite list_lookup_middle.
Qed.
Print Assumptions C109_typed.
Example C109_example :
  let cs := [WPut [1; 2] [5; 6]; WGetPtr [1; 2; 3] 2 2; WPut [1] [7; 7]; WRemovePtr [1; 2; 9] 2; WGet [1; 2] 2; WGet [1] 2] in
  Forall ptr_ok cs /\ Forall (typed 2) cs /\
  exists db, w_calls ∅ cs = Ok (db, [None; Some [5; 6]; None; None; None; Some [7; 7]]).
Proof. split_and!; [repeat (apply Forall_cons; split); simpl; (lia || done)..|]. eexists. vm_compute. reflexivity. Qed.

(** Keys of 256 bytes or more given by a pointer are cut to their length modulo 256; the
    object of another type is filled from outside of the string. *)
Theorem C109_store_refuted :
  (exists key data, length key = 300%nat /\
     exists db, w_calls ∅ [WPut key data; WGet key 1; WGetPtr key 300 1] = Ok (db, [None; Some data; None])) /\
  (exists key key' data, length key = 300%nat /\ key' <> key /\
     exists db, w_calls ∅ [WPut key data; WPut key' data; WRemovePtr key 300; WGet key 1; WGet key' 1] = Ok (db, [None; None; None; Some data; None])) /\
  (exists key data, w_calls ∅ [WPut key data; WGet key 8] = UB).
Proof.
  split_and!.
  - exists (replicate 300 1), [5]. split; [done|]. eexists. vm_compute. reflexivity.
  - exists (replicate 300 1), (replicate 44 1), [5]. split_and!; [done|done|]. eexists. vm_compute. reflexivity.
  - exists [1], [5; 5; 5; 5]. by vm_compute.
Qed.
Print Assumptions C109_store_refuted.

(** Lists: for keys of less than 256 bytes, what was put is got, by the three overloads. *)
Section lists.
  Context {T : Type} (ser : T -> bytes) (deser : bytes -> res (option (T * bytes))).
  Context (Hser : forall x s, deser (ser x ++ s) = Ok (Some (x, s))) (Hne : forall x, ser x <> []) (Hend : deser [] = Ok None).
  Lemma l_loop_ok fuel data : (length data < fuel)%nat -> l_loop deser fuel (data ≫= ser) = Ok data.
  Proof using Hser Hend.
    revert fuel. induction data as [|x data IH]; intros [|fuel] Hf; simpl in Hf; try lia.
    - cbn. by rewrite Hend.
    - change ((x :: data) ≫= ser) with (ser x ++ (data ≫= ser)). cbn [l_loop]. rewrite Hser. cbn [rbind]. rewrite IH by lia. done.
  Qed.
  Lemma ser_length data : (length data <= length (data ≫= ser))%nat.
  Proof using Hne.
    induction data as [|x data IH]; [done|]. change ((x :: data) ≫= ser) with (ser x ++ (data ≫= ser)). rewrite app_length.
    destruct (ser x) eqn:E; [by apply Hne in E|]. simpl. lia.
  Qed.
End lists.
Theorem C109_lists :
  forall T (ser : T -> bytes) deser, (forall x s, deser (ser x ++ s) = Ok (Some (x, s))) -> (forall x, ser x <> []) ->
    deser [] = Ok None ->
    forall (db : raw) key data, (length key < 256)%nat ->
      l_get deser (l_put ser db key data) key = Ok (true, data) /\
      l_get_str deser (l_put ser db key data) key = Ok (true, data) /\
      (forall key', key' <> key -> (length key' < 256)%nat ->
         l_get deser (l_put ser db key data) key' = l_get deser db key') /\
      (db !! key = None -> l_get deser db key = Ok (false, [])).
Proof.
  intros T ser deser H1 H2 H3 db key data Hk.
  assert (Hread : l_read deser (l_put ser db key data) key = Ok (true, data)).
  { unfold l_read, l_put. rewrite lookup_insert. rewrite (l_loop_ok ser deser H1 H3); [done|]. pose proof (ser_length ser H2 data). lia. }
  assert (Hkey : forall k, (length k < 256)%nat -> ptr_key k (N.of_nat (length k)) = Ok k).
  { intros k Hl. rewrite ptr_key_ok by lia. by rewrite Nat2N.id, take_ge. }
  unfold l_get, l_get_ptr. split_and!.
  - rewrite Hkey by done. exact Hread.
  - exact Hread.
  - intros key' Hne Hl. rewrite Hkey by done. cbn [rbind]. unfold l_read, l_put. by rewrite lookup_insert_ne.
  - intros Hn. rewrite Hkey by done. cbn [rbind]. unfold l_read. by rewrite Hn.
Qed.
Print Assumptions C109_lists.

(** Longer keys: get of an array looks for the beginning of the key. *)
Theorem C109_lists_truncated :
  forall T (deser : bytes -> res (option (T * bytes))) (db : raw) key,
    l_get deser db key = l_get_str deser db (take (length key mod 256) key).
Proof.
  intros T deser db key. unfold l_get, l_get_ptr, ptr_key.
  assert (E : N.to_nat (N.of_nat (length key) mod 256) = (length key mod 256)%nat).
  { rewrite N2Nat.inj_mod, Nat2N.id. done. }
  rewrite E. rewrite (proj2 (Nat.leb_le _ _)); [done|]. by apply Nat.mod_le.
Qed.
Print Assumptions C109_lists_truncated.
Definition ser_byte (x : N) : bytes := [x].
Definition deser_byte (s : bytes) : res (option (N * bytes)) := Ok (match s with [] => None | x :: s' => Some (x, s') end).
Example C109_lists_example :
  (forall x s, deser_byte (ser_byte x ++ s) = Ok (Some (x, s))) /\ (forall x, ser_byte x <> []) /\ deser_byte [] = Ok None /\
  l_get deser_byte (l_put ser_byte (l_put ser_byte ∅ [1] [4; 5; 6]) [2] [7]) [1] = Ok (true, [4; 5; 6]).
Proof. split_and!; [done|done|done|by vm_compute]. Qed.
Theorem C109_lists_refuted :
  exists (key key' : bytes) (data data' : list N), length key = 300%nat /\ data <> [] /\
    l_get deser_byte (l_put ser_byte ∅ key data) key = Ok (false, []) /\
    l_get deser_byte (l_put ser_byte (l_put ser_byte ∅ key data) key' data') key = Ok (true, data') /\ data' <> data.
Proof. exists (replicate 300 1), (replicate 44 1), [1], [2]. split_and!; [done|done|by vm_compute|by vm_compute|done]. Qed.
Print Assumptions C109_lists_refuted.

(** ** C110: the RocksDB table of Pluto as bytes. *)
Definition inserts (db : raw) (l : list (bytes * list N)) : raw := foldl (fun db kv => g_insert db kv.1 kv.2) db l.
Definition last_insert (key : bytes) (l : list (bytes * list N)) : option (list N) :=
  snd <$> last (filter (fun kv => kv.1 = key) l).
Lemma chunks_le64 (l : list N) rest : Forall (fun x => x < 2 ^ 64) l ->
  le_val <$> chunks 8 (length l) ((l ≫= le64) ++ rest) = l.
Proof.
  induction 1 as [|x l Hx _ IH]; [done|]. change ((x :: l) ≫= le64) with (le64 x ++ (l ≫= le64)). cbn [length chunks].
  rewrite <- app_assoc. assert (Hl : length (le64 x) = 8%nat) by apply le64_length.
  rewrite take_app_alt, drop_app_alt by done. rewrite fmap_cons, IH. by rewrite le64_val.
Qed.
Lemma list64_length (l : list N) : length (l ≫= le64) = (8 * length l)%nat.
Proof.
  induction l as [|x l IH]; [done|]. change ((x :: l) ≫= le64) with (le64 x ++ (l ≫= le64)).
  rewrite app_length, IH, le64_length. simpl. lia.
Qed.
Lemma inserts_lookup (l : list (bytes * list N)) (key : bytes) (db : raw) : inserts db l !! key =
  match last_insert key l with Some v => Some (v ≫= le64) | None => db !! key end.
Proof.
  revert db. induction l as [|[k v] l IH] using rev_ind; intros db; [done|]. unfold inserts, last_insert. rewrite foldl_app, filter_app. simpl.
  fold (inserts db l). destruct (decide (k = key)) as [->|Hne].
  - rewrite (filter_cons_True _ (key, v) []) by done. rewrite last_app. simpl. unfold g_insert. by rewrite lookup_insert.
  - rewrite (filter_cons_False _ (k, v) []) by done. rewrite app_nil_r. unfold g_insert. rewrite lookup_insert_ne by done. apply IH.
Qed.

(** Every list inserted is got back, a key that was not inserted makes get throw. *)
Theorem C110_get :
  forall n l key, Forall (fun kv => length kv.2 = n /\ Forall (fun x => x < 2 ^ 64) kv.2) l ->
    g_get (inserts ∅ l) key n =
      match last_insert key l with Some v => Ok v | None => Throw OutOfRange end.
Proof.
  intros n l key Hl. unfold g_get. rewrite inserts_lookup. destruct (last_insert key l) as [v|] eqn:E; [|done].
  unfold last_insert in E. destruct (last _) as [[k v']|] eqn:El; [|done]. injection E as <-.
  apply last_Some_elem_of, elem_of_list_filter in El as [_ El]. rewrite Forall_forall in Hl. destruct (Hl _ El) as [Hn Hv]. simpl in Hn, Hv.
  assert (Hlen : (n * 8)%nat = length (v' ≫= le64)) by (rewrite list64_length; lia).
  cbn [snd]. rewrite Hlen, copy_exact. cbn [rbind]. rewrite <- Hn, <- (app_nil_r (v' ≫= le64)), chunks_le64 by done. done.
Qed.
Print Assumptions C110_get.
Example C110_example :
  g_get (inserts ∅ [([1], [5; 18446744073709551615]); ([2], [0; 0]); ([1], [300; 7])]) [1] 2 = Ok [300; 7] /\
  g_get (inserts ∅ [([1], [5; 6])]) [3] 2 = Throw OutOfRange.
Proof. split; by vm_compute. Qed.

(** A table that holds lists of another length: a shorter array gets the beginning of the
    list; a longer one is filled from outside of the string. *)
Theorem C110_other_length :
  forall n m l key v, Forall (fun kv => length kv.2 = n /\ Forall (fun x => x < 2 ^ 64) kv.2) l ->
    last_insert key l = Some v ->
    ((m <= n)%nat -> g_get (inserts ∅ l) key m = Ok (take m v)) /\
    ((n < m)%nat -> g_get (inserts ∅ l) key m = UB).
Proof.
  intros n m l key v Hl E. unfold g_get. rewrite inserts_lookup, E.
  unfold last_insert in E. destruct (last _) as [[k v']|] eqn:El; [|done]. injection E as <-.
  apply last_Some_elem_of, elem_of_list_filter in El as [_ El]. rewrite Forall_forall in Hl. destruct (Hl _ El) as [Hn Hv]. simpl in Hn, Hv.
  cbn [snd]. unfold copy_out. rewrite list64_length, Hn. split; intros Hm.
  - rewrite (proj2 (Nat.leb_le _ _)) by lia. cbn [rbind].
    rewrite <- (take_drop m v') at 1. rewrite bind_app, <- app_assoc.
    assert (Hlt : length (take m v') = m) by (rewrite take_length; lia).
    rewrite take_app_alt by (rewrite list64_length, Hlt; lia).
    pose proof (chunks_le64 (take m v') [] (Forall_take _ m _ Hv)) as Hc. rewrite Hlt, app_nil_r in Hc. by rewrite Hc.
  - rewrite (proj2 (Nat.leb_gt _ _)) by lia. done.
Qed.
Print Assumptions C110_other_length.
Example C110_other_length_example :
  let l := [([1], [5; 6]); ([2], [7; 8])] in
  Forall (fun kv => length kv.2 = 2%nat /\ Forall (fun x => x < 2 ^ 64) kv.2) l /\ last_insert [1] l = Some [5; 6] /\
  g_get (inserts ∅ l) [1] 1 = Ok [5] /\ g_get (inserts ∅ l) [1] 3 = UB.
Proof. split_and!; [repeat (apply Forall_cons; split; [split; [done|repeat (apply Forall_cons; split; [done|])]; done|]); done|by vm_compute..]. Qed.
