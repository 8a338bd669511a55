(** C128: what files are read as stashes. *)
From stdpp Require Import prelude gmap.
From Coq Require Import ZArith NArith Lia.
From Verif Require Import Base EncModel EncSpec EncProofs EncStash StashCutSpec StashReadSpec Props_Enc Props_StashCut.
Local Open Scope nat_scope.

Lemma le_bytes_val b : Forall (fun x => x < 256)%N b -> le_bytes (length b) (le_val b) = b.
Proof.
  induction 1 as [|x b Hx _ IH]; [done|]. cbn [length le_bytes le_val].
  rewrite (N.mul_comm 256), N.mod_add, N.mod_small by done. rewrite N.div_add, N.div_small, N.add_0_l by done. by rewrite IH.
Qed.
Lemma le_val_bound b : Forall (fun x => x < 256)%N b -> (le_val b < 256 ^ N.of_nat (length b))%N.
Proof.
  induction 1 as [|x b Hx _ IH]; [done|]. cbn [length le_val]. rewrite Nat2N.inj_succ, N.pow_succ_r'. lia.
Qed.
Lemma le_val_zero b : le_val b = 0%N -> b = replicate (length b) 0%N.
Proof.
  induction b as [|x b IH]; [done|]. cbn [le_val length replicate]. intros H. rewrite <- IH by lia. f_equal. lia.
Qed.
Lemma le_val_zeros z : le_val (replicate z 0%N) = 0%N.
Proof. induction z as [|z IH]; [done|]. cbn [replicate le_val]. by rewrite IH. Qed.

Lemma chunks_sizes sz n : forall b, length b = n * sz -> Forall (fun v => length v = sz) (chunks sz n b).
Proof.
  induction n as [|n IH]; intros b Hb; cbn [chunks]; [done|]. constructor.
  - rewrite take_length. lia.
  - apply IH. rewrite drop_length. lia.
Qed.

Lemma read_entry p s k vs s' : 0 < kp_val p -> Forall (fun x => x < 256)%N s ->
  deserialize_key_value p s = Ok ((k, vs), s') ->
  length k = kp_key p /\ Forall (fun v => length v = kp_val p) vs /\ (N.of_nat (length vs) < 2 ^ 64)%N /\
  (s = k ++ le64 (N.of_nat (length vs)) ++ mjoin vs ++ s' \/
   s' = [] /\ vs = [] /\ exists z, z < 8 /\ s = k ++ replicate z 0%N).
Proof.
  intros Hp Hs. unfold deserialize_key_value. case_bool_decide as Hk; [done|].
  set (s1 := drop (kp_key p) s). set (c := take 8 s1). set (s2 := drop 8 s1).
  case_bool_decide as Hn; [|done]. intros H.
  assert (Ek : k = take (kp_key p) s) by congruence.
  assert (Ev : vs = chunks (kp_val p) (N.to_nat (le_val c)) s2) by congruence.
  assert (Es : s' = drop (N.to_nat (le_val c) * kp_val p) s2) by congruence. clear H.
  assert (Hs1 : Forall (fun x => x < 256)%N s1) by (by apply Forall_drop).
  assert (Hc : Forall (fun x => x < 256)%N c) by (by apply Forall_take).
  pose proof (le_val_bound c Hc) as Hb.
  assert (Hlen : length c <= 8) by (unfold c; rewrite take_length; lia).
  assert (Hb' : (le_val c < 2 ^ 64)%N).
  { eapply N.lt_le_trans; [exact Hb|]. change (2 ^ 64)%N with (256 ^ 8)%N. apply N.pow_le_mono_r; lia. }
  set (n := N.to_nat (le_val c)) in *.
  assert (HL : n * kp_val p <= length s2) by nia.
  assert (E2 : s2 = take (n * kp_val p) s2 ++ s') by (by rewrite Es, take_drop).
  assert (HT : length (take (n * kp_val p) s2) = n * kp_val p) by (rewrite take_length; lia).
  assert (Ev' : vs = chunks (kp_val p) n (take (n * kp_val p) s2)).
  { rewrite Ev. rewrite E2 at 1. by apply chunks_app. }
  destruct (chunks_exact (kp_val p) n _ HT) as [HC HM]. rewrite <- Ev' in HC, HM.
  assert (Hss : s = k ++ c ++ s2) by (unfold c, s2; rewrite take_drop; unfold s1; by rewrite Ek, take_drop).
  split; [rewrite Ek, take_length; lia|]. split; [rewrite Ev'; by apply chunks_sizes|].
  split; [rewrite HC; lia|].
  destruct (decide (length c = 8)) as [H8|H8].
  - left. rewrite HC, HM, <- E2. replace (N.of_nat n) with (le_val c) by lia.
    change (le64 ?x) with (le_bytes 8 x). rewrite <- H8, le_bytes_val by done. done.
  - right. assert (Hz : s2 = []).
    { unfold s2. apply drop_ge. unfold c in H8. rewrite take_length in H8. lia. }
    assert (n = 0) as Hn0 by (rewrite Hz in HL; cbn in HL; nia).
    split; [rewrite Es, Hz; by apply drop_nil|]. split; [rewrite Ev', Hn0; done|].
    exists (length c). split; [lia|]. rewrite <- le_val_zero by lia. rewrite Hss at 1. by rewrite Hz, app_nil_r.
Qed.

Lemma read_cut p k z : length k = kp_key p -> z < 8 ->
  deserialize_key_value p (k ++ replicate z 0%N) = Ok ((k, []), []).
Proof.
  intros Hk Hz. unfold deserialize_key_value. rewrite bool_decide_false by (rewrite app_length; lia).
  rewrite take_app_alt, drop_app_alt by done.
  rewrite take_ge by (rewrite replicate_length; lia). rewrite drop_ge by (rewrite replicate_length; lia).
  rewrite le_val_zeros. rewrite bool_decide_true by (cbn; lia). done.
Qed.

Lemma loop_reads p : 0 < kp_key p -> 0 < kp_val p -> forall fuel s l,
  Forall (fun x => x < 256)%N s -> length s < fuel ->
  deserialize_loop fuel p s = Ok l <-> stash_file p s l.
Proof.
  intros Hkp Hp. induction fuel as [|fuel IH]; intros s l Hs Hf; [lia|]. split.
  - destruct (decide (s = [])) as [->|Hne]; [rewrite loop_nil; intros [= <-]; constructor|].
    rewrite loop_step by done. intros ([[k vs] s'] & Hd & H)%rbind_ok. cbn [fst snd] in H.
    apply rbind_ok in H as (kvs & Hl & H). assert (l = (k, vs) :: kvs) as -> by congruence.
    destruct (read_entry p s k vs s' Hp Hs Hd) as (Hk & Hv & Hb & [E|(-> & -> & z & Hz & ->)]).
    + rewrite E. constructor; [done..|]. apply IH; [|..|done].
      * rewrite E in Hs. apply Forall_app in Hs as [_ Hs]. apply Forall_app in Hs as [_ Hs]. by apply Forall_app in Hs as [_ Hs].
      * apply (f_equal length) in E. rewrite !app_length in E. lia.
    + rewrite loop_nil in Hl. assert (kvs = []) as -> by congruence. by constructor.
  - intros H. destruct H as [|k vs s l Hk Hv Hb H|k z Hk Hz].
    + apply loop_nil.
    + assert (Hd : deserialize_key_value p (k ++ le64 (N.of_nat (length vs)) ++ mjoin vs ++ s) = Ok ((k, vs), s)).
      { pose proof (deserialize_entry p k vs s (conj Hk Hv) Hb) as Hd. unfold entry_bytes in Hd. by rewrite <- !app_assoc in Hd. }
      rewrite loop_step. 2:{ intros E. apply (f_equal length) in E. rewrite app_length in E. cbn in E. lia. }
      rewrite Hd. cbn [rbind fst snd]. apply IH in H; [by rewrite H|..].
      * apply Forall_app in Hs as [_ Hs]. apply Forall_app in Hs as [_ Hs]. by apply Forall_app in Hs as [_ Hs].
      * rewrite !app_length in Hf. lia.
    + rewrite loop_step. 2:{ intros E. apply (f_equal length) in E. rewrite app_length in E. cbn in E. lia. }
      rewrite read_cut by done. cbn [rbind fst snd]. by rewrite loop_nil.
Qed.

Lemma read_entry_total p s : (exists r, deserialize_key_value p s = Ok r) \/ deserialize_key_value p s = UB.
Proof.
  unfold deserialize_key_value. case_bool_decide; [by right|]. case_bool_decide; [left; eauto|by right].
Qed.
Lemma read_entry_shorter p s r : 0 < kp_key p -> deserialize_key_value p s = Ok r -> length r.2 < length s.
Proof.
  intros Hk. unfold deserialize_key_value. case_bool_decide as H1; [done|]. case_bool_decide; [|done].
  intros H2. assert (E : r.2 = drop (N.to_nat (le_val (take 8 (drop (kp_key p) s))) * kp_val p) (drop 8 (drop (kp_key p) s))).
  { destruct r. cbn. congruence. }
  rewrite E, !drop_length. lia.
Qed.
Lemma loop_total p : 0 < kp_key p -> forall fuel s, length s < fuel ->
  (exists l, deserialize_loop fuel p s = Ok l) \/ deserialize_loop fuel p s = UB.
Proof.
  intros Hk. induction fuel as [|fuel IH]; intros s Hf; [lia|].
  destruct (decide (s = [])) as [->|Hne]; [rewrite loop_nil; left; eauto|]. rewrite loop_step by done.
  destruct (read_entry_total p s) as [[r Hr]|Hr]; rewrite Hr; [|by right]. cbn [rbind].
  apply read_entry_shorter in Hr; [|done]. destruct (IH r.2) as [[l Hl]|Hl]; [lia|..]; rewrite Hl; [left|by right].
  cbn [rbind]. eauto.
Qed.

Lemma foldl_last (l : list (bytes * list bytes)) k :
  foldl (fun m kv => <[kv.1 := kv.2]> m) (∅ : gmap bytes (list bytes)) l !! k = last_list_of k l.
Proof.
  induction l as [|kv l IH] using rev_ind; [apply lookup_empty|].
  rewrite foldl_app. cbn [foldl]. unfold last_list_of in *. rewrite reverse_app, reverse_singleton. cbn [app].
  unfold list_of in *. cbn [list_find]. destruct (decide (kv.1 = k)) as [<-|Hne].
  - by rewrite lookup_insert.
  - rewrite lookup_insert_ne, IH by done. by destruct (list_find _ (reverse l)) as [[]|].
Qed.

(** The byte strings that are read without passing their end are exactly the files of the
    description, and what is read is what they hold; a key that is there twice has its last
    list.  Every other byte string is read past its end. *)
Theorem C128_read p s : 0 < kp_key p -> 0 < kp_val p -> Forall (fun x => x < 256)%N s ->
  (exists l m, stash_file p s l /\ deserialize_map p s = Ok m /\ forall k, m !! k = last_list_of k l) \/
  ((forall l, ~ stash_file p s l) /\ deserialize_map p s = UB).
Proof.
  intros Hk Hp Hs. unfold deserialize_map.
  destruct (loop_total p Hk (S (length s)) s) as [[l Hl]|Hl]; [lia| |]; rewrite Hl; cbn [rbind].
  - left. exists l. eexists. split; [by apply (loop_reads p Hk Hp (S (length s))); [|lia|]|].
    split; [done|]. intros k. apply foldl_last.
  - right. split; [|done]. intros l H. apply (loop_reads p Hk Hp (S (length s))) in H; [congruence|done|lia].
Qed.

(** What is read is determined by the file, and the file by what is read and its length. *)
Theorem C128_unique p s l l' : 0 < kp_key p -> 0 < kp_val p -> Forall (fun x => x < 256)%N s ->
  stash_file p s l -> stash_file p s l' -> l = l'.
Proof.
  intros Hk Hp Hs H H'.
  apply (loop_reads p Hk Hp (S (length s))) in H; [|done|lia].
  apply (loop_reads p Hk Hp (S (length s))) in H'; [|done|lia]. congruence.
Qed.
Theorem C128_file p s s' l : stash_file p s l -> stash_file p s' l -> length s = length s' -> s = s'.
Proof.
  intros H. revert s'. induction H as [|k vs s l Hk Hv Hb H IH|k z Hk Hz]; intros s' H' HL.
  - by inversion H'.
  - inversion H' as [|k' vs' s2 l' Hk' Hv' Hb' H2|k' z Hk' Hz]; simplify_eq.
    + f_equal. f_equal. f_equal. apply IH; [done|]. rewrite !app_length in HL. lia.
    + rewrite !app_length, le64_length, replicate_length in HL. lia.
  - inversion H' as [|k' vs' s2 l' Hk' Hv' Hb' H2|k' z' Hk' Hz']; simplify_eq.
    + rewrite !app_length, le64_length, replicate_length in HL. lia.
    + rewrite !app_length, !replicate_length in HL. assert (z = z') as -> by lia. done.
Qed.

(** Not every file that is read was written by a builder: entries may come twice, and then the
    first is lost. *)
Theorem C128_twice_refuted :
  exists p s l m k vs, stash_file p s l /\ deserialize_map p s = Ok m /\ (k, vs) ∈ l /\ m !! k <> Some vs.
Proof.
  pose (p := EPar 2 1 64). pose (l := [([1; 1], [[7]]); ([1; 1], [[8]])]%N).
  exists p, ([1; 1] ++ le64 1 ++ [7] ++ [1; 1] ++ le64 1 ++ [8])%N, l.
  assert (Hf : stash_file p ([1; 1] ++ le64 1 ++ [7] ++ [1; 1] ++ le64 1 ++ [8])%N l).
  { apply (sf_entry p [1; 1]%N [[7]]%N ([1; 1] ++ le64 1 ++ [8])%N); [done|by repeat constructor|done|].
    apply (sf_entry p [1; 1]%N [[8]]%N []); [done|by repeat constructor|done|constructor]. }
  destruct (C128_read p ([1; 1] ++ le64 1 ++ [7] ++ [1; 1] ++ le64 1 ++ [8])%N) as [(l' & m & Hl & Hm & Hk)|[H _]];
    [vm_compute; lia|vm_compute; lia| | |by destruct (H l)].
  { change (le64 1) with (le_bytes 8 1). repeat (constructor; [by vm_compute|]). constructor. }
  exists m, [1; 1]%N, [[7]]%N. split; [done|]. split; [done|]. split; [by left|].
  assert (l' = l) as ->.
  { eapply C128_unique; [| | |exact Hl|exact Hf]; [vm_compute; lia|vm_compute; lia|].
    change (le64 1) with (le_bytes 8 1). repeat (constructor; [by vm_compute|]). constructor. }
  rewrite Hk. by vm_compute.
Qed.

(** A whole file, a file that is cut, and one that is not read. *)
Example C128_example :
  let p := EPar 2 1 64 in
  (match deserialize_map p ([1; 1; 1; 0; 0; 0; 0; 0; 0; 0; 7; 2; 2; 0; 0])%N with Ok m => Some (m !! [1; 1]%N, m !! [2; 2]%N) | _ => None end)
    = Some (Some [[7]]%N, Some []) /\
  (match deserialize_map p ([1; 1; 1; 0; 0; 0; 0; 0; 0; 0; 7; 2; 2; 1])%N with UB => true | _ => false end) = true.
Proof. split; by vm_compute. Qed.

Print Assumptions C128_read.
Print Assumptions C128_unique.
Print Assumptions C128_file.
Print Assumptions C128_twice_refuted.
Print Assumptions C128_example.
