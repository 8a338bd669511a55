(** C125: stash files that are cut short. *)
From stdpp Require Import prelude gmap.
From Coq Require Import ZArith NArith Lia.
From Verif Require Import Base EncModel EncSpec EncProofs EncStash StashCutSpec Props_Enc.
Local Open Scope nat_scope.

Lemma entries_spec p qs : entries p qs = stash_entries p qs.
Proof.
  unfold stash_entries. induction qs as [|q qs IH]; [done|]. cbn [entries omap list_omap].
  destruct (decide (stashed p q = [])); [done|]. by rewrite IH.
Qed.
Lemma take_le_bytes : forall a j n, j <= a -> take j (le_bytes a n) = le_bytes j n.
Proof.
  induction a as [|a IH]; intros [|j] n H; try done; [lia|]. cbn [le_bytes take]. rewrite IH by lia. done.
Qed.
Lemma entry_length p k vs : obj_ok p k vs -> length (entry_bytes k vs) = kp_key p + 8 + length vs * kp_val p.
Proof.
  intros [Hk Hv]. unfold entry_bytes. rewrite !app_length, le64_length, Hk, (mjoin_length_sz _ _ Hv). lia.
Qed.

Lemma cut_entry p k vs n : obj_ok p k vs -> (N.of_nat (length vs) < 2 ^ 64)%N -> 0 < kp_val p -> n <> 0 ->
  n < kp_key p + 8 + length vs * kp_val p ->
  deserialize_key_value p (take n (entry_bytes k vs)) =
    if decide (kp_key p <= n < kp_key p + 8 /\ (N.of_nat (length vs) mod 256 ^ N.of_nat (n - kp_key p) = 0)%N)
    then Ok ((k, []), []) else UB.
Proof.
  intros Ho Hb Hp Hn Hlt. pose proof (entry_length p k vs Ho) as HL. destruct Ho as [Hk Hv].
  pose proof (mjoin_length_sz _ _ Hv) as Hm.
  unfold deserialize_key_value. rewrite take_length, HL.
  destruct (decide (n < kp_key p)) as [H1|H1].
  { rewrite bool_decide_true by lia. rewrite decide_False by lia. done. }
  rewrite bool_decide_false by lia. unfold entry_bytes.
  rewrite take_app_ge by lia. rewrite Hk. rewrite (take_app_alt k), (drop_app_alt k) by done.
  destruct (decide (n < kp_key p + 8)) as [H2|H2].
  - rewrite take_app_le by (rewrite le64_length; lia).
    rewrite take_take, Nat.min_r by lia. rewrite drop_ge by (rewrite take_length, le64_length; lia).
    assert (Hle : le_val (take (n - kp_key p) (le64 (N.of_nat (length vs)))) = (N.of_nat (length vs) mod 256 ^ N.of_nat (n - kp_key p))%N).
    { change (le64 ?x) with (le_bytes 8 x). rewrite take_le_bytes by lia. apply le_val_bytes. }
    rewrite Hle. set (r := (N.of_nat (length vs) mod 256 ^ N.of_nat (n - kp_key p))%N). cbn [length].
    destruct (decide (r = 0%N)) as [->|Hr].
    + rewrite bool_decide_true by lia. rewrite decide_True by (split; [lia|done]). done.
    + rewrite bool_decide_false by nia. rewrite decide_False by tauto. done.
  - rewrite decide_False by lia. rewrite (take_app_ge (le64 _)) by (rewrite le64_length; lia).
    rewrite (take_app_alt (le64 _)), (drop_app_alt (le64 _)) by by rewrite le64_length.
    rewrite le64_val by done. rewrite le64_length, bool_decide_false; [done|].
    rewrite take_length, Hm. nia.
Qed.

Lemma loop_nil fuel p : deserialize_loop fuel p [] = Ok [].
Proof. by destruct fuel. Qed.
Lemma loop_step fuel p s : s <> [] -> deserialize_loop (S fuel) p s =
  (r <~ deserialize_key_value p s; kvs <~ deserialize_loop fuel p r.2; Ok (r.1 :: kvs)).
Proof. by destruct s. Qed.

Lemma cut_loop p l : 0 < kp_val p -> forall fuel n,
  Forall (fun kv => obj_ok p kv.1 kv.2 /\ (N.of_nat (length kv.2) < 2 ^ 64)%N) l ->
  length (take n (entries_bytes l)) < fuel ->
  deserialize_loop fuel p (take n (entries_bytes l)) = match cut p l n with Some l' => Ok l' | None => UB end.
Proof.
  intros Hp. unfold entries_bytes. induction l as [|[k vs] l IH]; intros fuel n Hl Hf.
  { cbn. rewrite take_nil. apply loop_nil. }
  apply Forall_cons in Hl as [[Ho Hb] Hl]. cbn [fst snd] in Ho, Hb. pose proof (entry_length p k vs Ho) as HL.
  rewrite fmap_cons in *. cbn [fst snd] in *. change (mjoin (?x :: ?y)) with (x ++ mjoin y) in *. cbn [cut].
  destruct (decide (_ <= n)) as [H|H].
  - rewrite take_app_ge in * by lia. rewrite HL in *. rewrite app_length, HL in Hf.
    destruct fuel as [|fuel]; [lia|]. rewrite loop_step.
    2: { intros E. apply app_eq_nil in E as [E _]. rewrite E in HL. cbn in HL. lia. }
    rewrite deserialize_entry by done. cbn [rbind fst snd]. rewrite IH by (done || lia).
    by destruct (cut p l _).
  - rewrite take_app_le in * by lia. destruct (decide (n = 0)) as [->|Hn]; [rewrite take_0; apply loop_nil|].
    rewrite take_length, HL in Hf. destruct fuel as [|fuel]; [lia|]. rewrite loop_step.
    2: { intros E. apply (f_equal length) in E. rewrite take_length, HL in E. cbn in E. lia. }
    rewrite cut_entry by (done || lia). destruct (decide _); cbn [rbind fst snd]; [by rewrite loop_nil|done].
Qed.

Lemma cut_keys p l : forall n l', cut p l n = Some l' -> NoDup l.*1 -> NoDup l'.*1 /\ forall k, k ∈ l'.*1 -> k ∈ l.*1.
Proof.
  induction l as [|[k vs] l IH]; intros n l' H HN; cbn [cut] in H.
  - injection H as <-. by split.
  - csimpl in HN. apply NoDup_cons in HN as [Hn HN]. destruct (decide _) as [Hs|Hs].
    + destruct (cut p l _) as [l1|] eqn:E; [|done]. injection H as <-. destruct (IH _ _ E HN) as [H1 H2]. csimpl. split.
      * apply NoDup_cons. auto.
      * intros x [->|Hx]%elem_of_cons; [left|right; auto].
    + destruct (decide (n = 0)); [injection H as <-; split; [by constructor|intros x Hx; by apply elem_of_nil in Hx]|].
      destruct (decide _); [|done]. injection H as <-. csimpl. split; [apply NoDup_singleton|].
      intros x ->%elem_of_list_singleton. left.
Qed.
Lemma list_of_foldl l k : NoDup l.*1 -> foldl (fun (m : gmap bytes (list bytes)) kv => <[kv.1 := kv.2]> m) ∅ l !! k = list_of k l.
Proof.
  intros HN. rewrite foldl_insert_lookup by done. unfold list_of. by destruct (list_find _ l) as [[]|].
Qed.

(** C125.  Exactly what is read from the first [n] bytes of a stash: [cut] says which entries,
    and elsewhere the read of an entry misses its end. *)
Theorem C125_cut :
  forall p qs n,
    Forall (part_ok p) qs -> NoDup (pt_key <$> qs) -> 0 < kp_val p ->
    exists file, serialize_parts p qs = Ok file /\
      match cut p (stash_entries p qs) n with
      | Some l => exists m, deserialize_map p (take n file) = Ok m /\ forall k, m !! k = list_of k l
      | None => deserialize_map p (take n file) = UB
      end.
Proof.
  intros p qs n Hqs HN Hp. exists (entries_bytes (entries p qs)). split; [by apply serialize_parts_ok|].
  rewrite <- entries_spec. unfold deserialize_map.
  rewrite cut_loop; [|done|by apply entries_ok|lia].
  destruct (cut p (entries p qs) n) as [l|] eqn:E; [|done]. cbn [rbind]. eexists. split; [done|].
  intros k. apply list_of_foldl. eapply cut_keys; [exact E|by apply entries_nodup].
Qed.
Print Assumptions C125_cut.

Lemma cut_sound p l : forall n l' k, NoDup l.*1 -> cut p l n = Some l' ->
  list_of k l' = list_of k l \/ list_of k l' = None \/ list_of k l' = Some [].
Proof.
  induction l as [|[k1 vs] l IH]; intros n l' k HN H; cbn [cut] in H; [injection H as <-; auto|].
  csimpl in HN. apply NoDup_cons in HN as [Hn HN]. destruct (decide (_ <= n)).
  - destruct (cut p l _) as [l1|] eqn:E; [|done]. injection H as <-. specialize (IH _ _ k HN E).
    unfold list_of in *. cbn [list_find]. destruct (decide ((k1, vs).1 = k)); [by left|].
    destruct (list_find _ l1) as [[]|], (list_find _ l) as [[]|]; cbn in *; auto.
  - destruct (decide (n = 0)); [injection H as <-; auto|]. destruct (decide _); [|done]. injection H as <-.
    unfold list_of. cbn [list_find]. destruct (decide ((k1, []).1 = k)); auto.
Qed.
(** Hence a cut stash that is accepted never gives wrong elements: a key has all of its list,
    an empty list, or nothing. *)
Theorem C125_sound :
  forall p qs n file m,
    Forall (part_ok p) qs -> NoDup (pt_key <$> qs) -> 0 < kp_val p ->
    serialize_parts p qs = Ok file -> deserialize_map p (take n file) = Ok m ->
    forall k, m !! k = lookup_stash p k qs \/ m !! k = None \/ m !! k = Some [].
Proof.
  intros p qs n file m Hqs HN Hp Hf Hm k. destruct (C125_cut p qs n Hqs HN Hp) as (file' & Hf' & H).
  rewrite Hf in Hf'. injection Hf' as <-. destruct (cut p (stash_entries p qs) n) as [l|] eqn:E; [|congruence].
  destruct H as (m' & Hm' & Hl). rewrite Hm in Hm'. injection Hm' as <-. rewrite Hl, <- entries_find by done.
  rewrite <- entries_spec in E. pose proof (cut_sound p _ n l k (entries_nodup p qs HN) E) as HS.
  unfold list_of in HS at 2. destruct (list_find _ (entries p qs)) as [[]|]; exact HS.
Qed.
Print Assumptions C125_sound.

(** A stash that lacks bytes is not always refused: entries are missing if the cut is between
    two of them, and a list is empty if it is just after the key. *)
Theorem C125_refuted :
  exists p qs file n n' m m' k,
    Forall (part_ok p) qs /\ NoDup (pt_key <$> qs) /\ 0 < kp_val p /\ serialize_parts p qs = Ok file /\
    n < length file /\ deserialize_map p (take n file) = Ok m /\ m !! k = None /\
    n' < length file /\ deserialize_map p (take n' file) = Ok m' /\ m' !! k = Some [] /\
    (exists v vs, lookup_stash p k qs = Some (v :: vs)).
Proof.
  destruct ex_stash_ok as (H1 & H2 & _). assert (Hp : 0 < kp_val ex_p) by (vm_compute; lia).
  destruct (C125_cut ex_p ex_stash 40 H1 H2 Hp) as (file & Hf & Hc).
  destruct (C125_cut ex_p ex_stash 56 H1 H2 Hp) as (file' & Hf' & Hc'). rewrite Hf in Hf'. injection Hf' as <-.
  assert (HL : match serialize_parts ex_p ex_stash with Ok f => length f | _ => 0 end = 88) by (by vm_compute).
  rewrite Hf in HL.
  assert (E : cut ex_p (stash_entries ex_p ex_stash) 40 = Some [(ex_key 1, ex_val <$> [3;4]%N)]) by (by vm_compute).
  assert (E' : cut ex_p (stash_entries ex_p ex_stash) 56 = Some [(ex_key 1, ex_val <$> [3;4]%N); (ex_key 3, [])]) by (by vm_compute).
  rewrite E in Hc. rewrite E' in Hc'. destruct Hc as (m & Hm & Hk). destruct Hc' as (m' & Hm' & Hk').
  exists ex_p, ex_stash, file, 40, 56, m, m', (ex_key 3).
  split_and!; try done; try lia.
  - rewrite Hk. by vm_compute.
  - rewrite Hk'. by vm_compute.
  - exists (ex_val 7), (ex_val <$> [8;9]%N). by vm_compute.
Qed.
Print Assumptions C125_refuted.

(** Cuts of the same file: in the first key, just after it, in the number of elements, in the
    elements, at the end of the first entry and of the file. *)
Example C125_example : Forall (part_ok ex_p) ex_stash /\ NoDup (pt_key <$> ex_stash) /\ 0 < kp_val ex_p /\
  (fun n => (fun l : list (bytes * list bytes) => (fun kv : bytes * list bytes => length kv.2) <$> l) <$> cut ex_p (stash_entries ex_p ex_stash) n) <$> [0; 5; 16; 17; 30; 40; 88] =
  [Some []; None; Some [0]; None; None; Some [2]; Some [2; 3]].
Proof. destruct ex_stash_ok as (H1 & H2 & _). split; [done|]. split; [done|]. split; [vm_compute; lia|by vm_compute]. Qed.
