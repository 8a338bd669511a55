(** Final theorems about the asynchronous lookups (properties C18 and C23). *)
From stdpp Require Import prelude gmap.
From Coq Require Import ZArith NArith Lia.
From Verif Require Import Base GraphModel AllocModel EncModel VecModel CuckooModel CuckooSpec CuckooProofs
  EncSpec StoreModel StoreSpec AsyncModel AsyncProofs Props_Cuckoo Props_Enc Props_Store.
Local Open Scope nat_scope.
Local Arguments N.of_nat : simpl never.
Local Arguments N.modulo : simpl never.
Local Arguments N.to_nat : simpl never.
Local Arguments N.pow : simpl never.

(** ** C23: the Oceanus lookup. *)
(** Unless both slots match the key: under every schedule of the two handlers
    nothing undefined happens (no data race, no use of the state once freed), the
    user is called back at most once and only when both handlers are done with the
    state, which is freed; when both handlers were given time to run they have
    returned and the user was called exactly once, with the value of the matching
    slot if there is one. *)
Theorem C23_once :
  forall q sched,
    ~ (c_matches q false = true /\ c_matches q true = true) ->
    exists s, c_run q sched c_init = Ok s /\
      (ca_calls s = [] \/
       ca_calls s = [drop (length (cr_key q)) <$>
         (if c_matches q false then cr_read q false
          else if c_matches q true then cr_read q true else None)] /\
       ca_mem s = None /\ ca_pc s false = CEnd /\ ca_pc s true = CEnd) /\
      (5 <= count_occ bool_dec sched false -> 5 <= count_occ bool_dec sched true ->
       ca_calls s <> []).
Proof.
  intros q sched Hm. destruct (cinv_run q sched Hm c_init (cinv_init q)) as (s & E & I & R).
  exists s. split; [done|]. split.
  - destruct I; auto.
  - intros H0 H1. pose proof (R false) as R0. pose proof (R true) as R1. simpl in R0, R1.
    assert (P0 : ca_pc s false = CEnd) by (destruct (ca_pc s false); simpl in R0; try lia; done).
    assert (P1 : ca_pc s true = CEnd) by (destruct (ca_pc s true); simpl in R1; try lia; done).
    destruct I as [E0 E1 Hle HM HC|j Q1 Q2 HM HC|j Q1 Q2 HM HC|j Q1 Q2 HM HC|Q1 Q2 HM HC].
    + rewrite P0, P1 in Hle. simpl in Hle. lia.
    + destruct j; congruence.
    + destruct j; congruence.
    + destruct j; congruence.
    + by rewrite HC.
Qed.
Print Assumptions C23_once.
(** The same, told without the test of the code: a slot holds the key if it is made of the key
    and of a value; the user gets the value of the slot that holds the key, and nothing if none
    does (in particular if the reads failed). *)
Definition slot_holds (key v : bytes) (slot : option bytes) : Prop := slot = Some (key ++ v).
Lemma c_matches_ok q i : c_matches q i = true <-> exists v, slot_holds (cr_key q) v (cr_read q i).
Proof.
  unfold c_matches, slot_holds, match_key. destruct (cr_read q i) as [pl|]; [|split; [done|by intros [v ?]]].
  rewrite bool_decide_eq_true. split.
  - intros E. exists (drop (length (cr_key q)) pl). f_equal. rewrite <- E at 1. by rewrite take_drop.
  - intros [v [= ->]]. by rewrite take_app_alt by done.
Qed.
Theorem C23_value :
  forall q sched,
    ~ (exists v w, slot_holds (cr_key q) v (cr_read q false) /\ slot_holds (cr_key q) w (cr_read q true)) ->
    exists s, c_run q sched c_init = Ok s /\ length (ca_calls s) <= 1 /\
      (5 <= count_occ bool_dec sched false -> 5 <= count_occ bool_dec sched true ->
       exists answer, ca_calls s = [answer] /\
         forall v, answer = Some v <-> exists i, slot_holds (cr_key q) v (cr_read q i)).
Proof.
  intros q sched Hno. destruct (C23_once q sched) as (s & E & Hc & Hc').
  { intros [[v Hv]%c_matches_ok [w Hw]%c_matches_ok]. apply Hno. by exists v, w. }
  exists s. split; [done|]. split; [destruct Hc as [->|(-> & _)]; simpl; lia|]. intros S0 S1.
  destruct Hc as [Hc|(Hc & _)]; [by destruct (Hc' S0 S1)|]. eexists. split; [exact Hc|]. clear Hc Hc' E. intros v.
  assert (Hval : forall i w, slot_holds (cr_key q) w (cr_read q i) -> drop (length (cr_key q)) <$> cr_read q i = Some w).
  { intros i w ->. simpl. f_equal. apply drop_app_alt. done. }
  destruct (c_matches q false) eqn:M0.
  - apply c_matches_ok in M0 as [w Hw]. rewrite (Hval _ _ Hw). split.
    + intros [= ->]. by exists false.
    + intros [[] Hi]; [by destruct Hno; exists w, v|]. unfold slot_holds in *. rewrite Hw in Hi.
      injection Hi as Hi. apply app_inv_head in Hi. by subst.
  - assert (N0 : forall w, ~ slot_holds (cr_key q) w (cr_read q false)).
    { intros w Hw. assert (c_matches q false = true) by (apply c_matches_ok; by exists w). congruence. }
    destruct (c_matches q true) eqn:M1.
    + apply c_matches_ok in M1 as [w Hw]. rewrite (Hval _ _ Hw). split.
      * intros [= ->]. by exists true.
      * intros [[] Hi]; [|by destruct (N0 v)]. unfold slot_holds in *. rewrite Hw in Hi.
        injection Hi as Hi. apply app_inv_head in Hi. by subst.
    + split; [done|]. intros [[] Hi]; [|by destruct (N0 v)].
      assert (c_matches q true = true) by (apply c_matches_ok; by exists v). congruence.
Qed.
Print Assumptions C23_value.
Definition ex_creq : creq := CReq [1; 2]%N (fun i : bool => if i then Some [1; 2; 7]%N else Some [3; 4; 9]%N).
Definition ex_sched : list bool := [true; false; true; false; false; true; false; true; true; false; true; false].
Example ex_once : ~ (c_matches ex_creq false = true /\ c_matches ex_creq true = true) /\
  5 <= count_occ bool_dec ex_sched false /\ 5 <= count_occ bool_dec ex_sched true /\
  exists s, c_run ex_creq ex_sched c_init = Ok s /\ ca_calls s = [Some [7]%N].
Proof.
  split; [by intros [? _]|]. split; [simpl; lia|]. split; [simpl; lia|]. eexists. split; [vm_compute; reflexivity|done].
Qed.

(** A read fails and the other slot holds the key. *)
Example ex_value : let q := CReq [1; 2]%N (fun i : bool => if i then Some [1; 2; 7]%N else None) in
  ~ (exists v w, slot_holds (cr_key q) v (cr_read q false) /\ slot_holds (cr_key q) w (cr_read q true)) /\
  slot_holds (cr_key q) [7]%N (cr_read q true) /\
  exists s, c_run q ex_sched c_init = Ok s /\ ca_calls s = [Some [7]%N].
Proof. split; [by intros (v & w & [=] & _)|]. split; [done|]. eexists. split; [vm_compute; reflexivity|done]. Qed.

(** On a table built from pairs with distinct keys: the lookup calls back exactly
    once with what the synchronous lookup returns. *)
Theorem C23_table :
  forall ksz vsz size depth max_n hash kvs key sched,
    0 < ksz -> 0 < size -> kv_ok ksz vsz kvs -> (N.of_nat (length kvs) <= no_index)%N ->
    NoDup kvs.*1 -> length key = ksz -> key <> ff_key ksz ->
    5 <= count_occ bool_dec sched false -> 5 <= count_occ bool_dec sched true ->
    exists b outs file t q s,
      cb_build (ksz + vsz) size depth max_n hash kvs = (b, outs, (file, Ok tt)) /\
      ct_open (ksz + vsz) file = Ok t /\
      ct_async_submit (ksz + vsz) hash t key = Ok q /\
      c_run q sched c_init = Ok s /\
      ca_mem s = None /\
      ca_calls s = [match ct_get (ksz + vsz) hash t key with Ok v => Some v | _ => None end].
Proof.
  intros ksz vsz size depth max_n hash kvs key sched Hk Hs HK HN ND Lk Hff S0 S1.
  destruct (build_slots ksz vsz size depth max_n hash kvs Hk Hs HK HN) as
    (b & outs & file & t & E1 & E2 & Hts & HG).
  destruct (HG key Lk Hff) as (pl0 & pl1 & G0 & G1 & HM). specialize (HM ND).
  assert (Hq : ct_async_submit (ksz + vsz) hash t key = Ok (CReq key (fun i : bool => if i then Some pl1 else Some pl0))).
  { unfold ct_async_submit. rewrite bool_decide_eq_false_2 by lia.
    rewrite (vec_async_of_get _ _ _ _ G0). cbn [rbind]. rewrite (vec_async_of_get _ _ _ _ G1). done. }
  set (q := CReq key (fun i : bool => if i then Some pl1 else Some pl0)) in *.
  assert (M0 : c_matches q false = match_key pl0 key) by done.
  assert (M1 : c_matches q true = match_key pl1 key) by done.
  destruct (C23_once q sched) as (s & Es & Hc & Hc'); [by rewrite M0, M1|].
  exists b, outs, file, t, q, s. split_and!; auto.
  - destruct Hc as [Hc|(_ & Hc & _)]; [|done]. by destruct (Hc' S0 S1).
  - destruct Hc as [Hc|(-> & _)]; [by destruct (Hc' S0 S1)|].
    unfold ct_get. rewrite bool_decide_eq_false_2 by lia. rewrite G0. cbn [rbind]. rewrite M0, M1.
    destruct (match_key pl0 key); [done|]. rewrite G1. cbn [rbind]. by destruct (match_key pl1 key).
Qed.
Print Assumptions C23_table.

(** When both slots match, the two handlers race.  It is enough to look the key made
    of 0xFF up, which matches all the empty slots. *)
Theorem C23_race_refuted :
  exists hash kvs b outs file t key q i,
    cb_build 24 2 4 1 hash kvs = (b, outs, (file, Ok tt)) /\
    key ∉ kvs.*1 /\ length key = 16 /\
    ct_open 24 file = Ok t /\ ct_async_submit 24 hash t key = Ok q /\ c_run q [i] c_init = UB.
Proof.
  exists oceanus_hash, [(replicate 16 0%N, replicate 8 7%N)]. do 4 eexists. exists (ff_key 16). eexists. exists true.
  split_and!.
  - vm_compute. reflexivity.
  - apply (bool_decide_unpack _). by vm_compute.
  - done.
  - vm_compute. reflexivity.
  - vm_compute. reflexivity.
  - vm_compute. reflexivity.
Qed.
Print Assumptions C23_race_refuted.

(** ** C18: the Tethys lookup. *)
(** In every execution that does not run into undefined behaviour, the user is
    called back at most once, after the state is freed, with the list that the
    synchronous lookup returns, up to its order; and exactly once when both handlers
    were given time to run. *)
Theorem C18_delivered :
  forall sp st key q r sched s,
    t_submit sp st (fun _ => false) key = Ok q -> get_list sp st key = Ok r ->
    t_run sp st q sched t_init = Ok s ->
    (ta_calls s = [] \/ exists r', ta_calls s = [r'] /\ r' ≡ₚ r /\ ta_mem s = None /\
                          ta_pc s false = TEnd /\ ta_pc s true = TEnd) /\
    (6 <= count_occ bool_dec sched false -> 6 <= count_occ bool_dec sched true -> ta_calls s <> []).
Proof.
  intros sp st key q r sched s Hq Hr Hs.
  pose proof (tinv_run sp st q sched t_init) as HR. rewrite Hs in HR.
  destruct HR as [I R]; [by left|].
  assert (HH : ta_calls s = [] \/ exists r', ta_calls s = [r'] /\ r' ≡ₚ r /\ ta_mem s = None /\
                          ta_pc s false = TEnd /\ ta_pc s true = TEnd).
  { destruct I as [(_ & _ & _ & HC)|[f H]]; [by left|].
    destruct H as [p Hp P1 P2 HM HC|p p' Hp Hp' P1 P2 HM HC|r1 Hr1 P1 P2 HM HC|r1 Hr1 P1 P2 HM HC|r1 Hr1 P1 P2 HM HC]; auto.
    right. exists r1. destruct (t_result sp st key q r f Hq Hr) as (r2 & E2 & HP). rewrite Hr1 in E2. injection E2 as <-.
    split_and!; auto; by destruct f. }
  split; [done|]. intros C0 C1. pose proof (R false) as R0. pose proof (R true) as R1. simpl in R0, R1.
  assert (P0 : ta_pc s false = TEnd) by (destruct (ta_pc s false); simpl in R0; try lia; done).
  assert (P1 : ta_pc s true = TEnd) by (destruct (ta_pc s true); simpl in R1; try lia; done).
  destruct I as [(Q0 & _)|[f H]]; [congruence|].
  destruct H as [p Hp Q1 Q2 HM HC|p p' Hp Hp' Q1 Q2 HM HC|r1 Hr1 Q1 Q2 HM HC|r1 Hr1 Q1 Q2 HM HC|r1 Hr1 Q1 Q2 HM HC].
  - destruct f; simpl in *; congruence.
  - destruct f; simpl in *; rewrite ?P0, ?P1 in Q2; by subst p'.
  - destruct f; simpl in *; congruence.
  - destruct f; simpl in *; congruence.
  - by rewrite HC.
Qed.
Print Assumptions C18_delivered.

(** If one handler runs to its end before the other one starts (as when a single
    thread runs the completions), whichever is first, nothing undefined happens. *)
Theorem C18_serial :
  forall sp st key q r f n sched,
    t_submit sp st (fun _ => false) key = Ok q -> get_list sp st key = Ok r -> 3 <= n ->
    6 <= count_occ bool_dec sched (negb f) ->
    exists s r', t_run sp st q (replicate n f ++ sched) t_init = Ok s /\
      ta_calls s = [r'] /\ r' ≡ₚ r /\ ta_mem s = None.
Proof.
  intros sp st key q r f n sched Hq Hr Hn Hc.
  destruct (t_first_runs sp st q f n Hn) as (s1 & E1 & A1 & P1).
  destruct (t_result sp st key q r f Hq Hr) as (r' & Er & HP).
  destruct (tafter_run sp st q f sched ltac:(eauto) s1 A1 P1) as (s & E & A).
  assert (Happ : t_run sp st q (replicate n f ++ sched) t_init = Ok s).
  { rewrite t_run_app, E1. done. }
  exists s, r'. split; [done|].
  pose proof (tinv_run sp st q sched s1 ltac:(right; eauto)) as HR. rewrite E in HR. destruct HR as [_ R].
  specialize (R (negb f)).
  assert (H6 : t_rank (ta_pc s1 (negb f)) <= 6) by (destruct (ta_pc s1 (negb f)); simpl; lia).
  assert (P2 : ta_pc s (negb f) = TEnd) by (destruct (ta_pc s (negb f)); simpl in R; try lia; done).
  destruct A as [p Hp Q1 Q2 HM HC|p p' Hp Hp' Q1 Q2 HM HC|r1 Hr1 Q1 Q2 HM HC|r1 Hr1 Q1 Q2 HM HC|r1 Hr1 Q1 Q2 HM HC].
  - congruence.
  - rewrite P2 in Q2. by subst p'.
  - congruence.
  - congruence.
  - rewrite Er in Hr1. injection Hr1 as <-. done.
Qed.
Print Assumptions C18_serial.

(** A failed read is never reported to the user: no execution calls back or
    completes (the null pointer is followed). *)
Theorem C18_failed_read :
  forall sp st key fails q sched s,
    t_submit sp st fails key = Ok q -> (exists i, fails i = true) ->
    t_run sp st q sched t_init = Ok s ->
    ta_calls s = [] /\ exists i, ta_pc s i <> TEnd.
Proof.
  intros sp st key fails q sched s Hq [i Hi] Hs.
  pose proof (tinv_run sp st q sched t_init) as HR. rewrite Hs in HR.
  destruct HR as [I _]; [by left|].
  assert (Hnull : forall f r, t_decode sp st (tr_key q) (t_full q f) <> Ok r).
  { intros f r. unfold t_submit in Hq. apply rbind_ok in Hq as (bb & _ & Hq). injection Hq as <-.
    unfold t_decode, t_full. cbn [tr_read th_b0 th_b1].
    destruct (fails true) eqn:Ft, (fails false) eqn:Ff, i, f; cbn [negb]; rewrite ?Ft, ?Ff; try done; congruence. }
  destruct I as [(Q0 & Q1 & _ & HC)|[f H]].
  { split; [done|]. exists true. congruence. }
  destruct H as [p Hp Q1 Q2 HM HC|p p' Hp Hp' Q1 Q2 HM HC|r1 Hr1 Q1 Q2 HM HC|r1 Hr1 Q1 Q2 HM HC|r1 Hr1 Q1 Q2 HM HC];
    try by destruct (Hnull _ _ Hr1).
  - split; [done|]. exists (negb f). congruence.
  - split; [done|]. exists (negb f). rewrite Q2. by intros ->.
Qed.
Print Assumptions C18_failed_read.

(** For a store built from a database, when the completions are serial: the list
    inserted for the key. *)
Theorem C18_store :
  forall sp kvs b0,
    db_ok sp kvs -> new_store_builder sp = Ok b0 ->
    Forall (fun kv => kv.2 <> []) (accepted (sp_enc sp) kvs) ->
    exists b2 f st,
      (forall fuel, store_fuel (sp_enc sp) kvs <= fuel ->
         store_build fuel sp (run_inserts sp b0 kvs).1 = (b2, Ok f)) /\
      open_store (sp_enc sp) f = Ok st /\
      forall k h n sched, 3 <= n -> 6 <= count_occ bool_dec sched (negb h) ->
        exists q s r, t_submit sp st (fun _ => false) k = Ok q /\
          t_run sp st q (replicate n h ++ sched) t_init = Ok s /\
          ta_calls s = [r] /\ r ≡ₚ values_of k (accepted (sp_enc sp) kvs).
Proof.
  intros sp kvs b0 Hdb Hb Hne. destruct (C15_store_lookup sp kvs b0 Hdb Hb Hne) as (b2 & f & st & _ & H2 & H3 & H4).
  exists b2, f, st. split_and!; auto. intros k h n sched Hn Hc. destruct (H4 k) as (r & Hr & HP).
  assert (Hq : exists q, t_submit sp st (fun _ => false) k = Ok q).
  { unfold get_list in Hr. apply rbind_ok in Hr as (bk & Eb & _). unfold t_submit. rewrite Eb. cbn [rbind]. eauto. }
  destruct Hq as [q Hq].
  destruct (C18_serial sp st k q r h n sched Hq Hr Hn Hc) as (s & r' & E1 & E2 & E3 & _).
  exists q, s, r'. split_and!; auto. by rewrite E3.
Qed.
Print Assumptions C18_store.

(** In general the second handler can follow the pointer that the first one has not
    stored yet. *)
Definition ex_store : res store :=
  b0 <~ new_store_builder ex_sp;
  f <~ (store_build (store_fuel (sp_enc ex_sp) ex_kvs) ex_sp (run_inserts ex_sp b0 ex_kvs).1).2;
  open_store (sp_enc ex_sp) f.
Theorem C18_race_refuted :
  exists sp st key q r sched,
    ex_store = Ok st /\ sp = ex_sp /\
    t_submit sp st (fun _ => false) key = Ok q /\ get_list sp st key = Ok r /\ r <> [] /\
    t_run sp st q sched t_init = UB.
Proof.
  exists ex_sp. eexists. exists (ex_key 1). do 2 eexists. exists [false; true; true; true; true].
  split_and!.
  - vm_compute. reflexivity.
  - done.
  - vm_compute. reflexivity.
  - vm_compute. reflexivity.
  - done.
  - vm_compute. reflexivity.
Qed.
Print Assumptions C18_race_refuted.
(** The same lookup under other schedules, one of them neither serial nor undefined. *)
Example ex_delivered : exists st q r s s',
  ex_store = Ok st /\ t_submit ex_sp st (fun _ => false) (ex_key 1) = Ok q /\
  get_list ex_sp st (ex_key 1) = Ok r /\
  t_run ex_sp st q [false; true; false; true; true; false; true; true; true] t_init = Ok s /\ ta_calls s = [r] /\
  t_run ex_sp st q (replicate 4 true ++ replicate 6 false) t_init = Ok s' /\ length (ta_calls s') = 1.
Proof. do 5 eexists. split_and!; try (vm_compute; reflexivity). Qed.
(** A read that fails, with a schedule that stops just before the null pointer and
    one that follows it. *)
Example ex_failed : exists st q s,
  ex_store = Ok st /\ t_submit ex_sp st (fun i => i) (ex_key 1) = Ok q /\
  t_run ex_sp st q [true; true; true; false; false; false] t_init = Ok s /\ ta_calls s = [] /\
  t_run ex_sp st q [true; true; true; false; false; false; false] t_init = UB.
Proof. do 3 eexists. split_and!; try (vm_compute; reflexivity). Qed.
