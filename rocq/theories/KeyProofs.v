(** Proofs about the key files. *)
From stdpp Require Import prelude.
From Coq Require Import NArith Lia.
From Verif Require Import Base EncModel KeyModel KeySpec.

Local Arguments k_disk : simpl never.

(** What an interrupted creation leaves of the key files. *)
Definition left_of (k : bytes) (o : option bytes) : Prop := o = None \/ exists m, o = Some (take m k).
Definition left_by (keys : list bytes) (fs : list (option bytes)) : Prop := Forall2 left_of keys fs.

Lemma k_disk_app f l1 l2 : k_disk f (l1 ++ l2) = k_disk (k_disk f l1) l2.
Proof. apply foldl_app. Qed.
Lemma k_disk_cons f e l : k_disk f (e :: l) = k_disk (k_apply f e) l.
Proof. done. Qed.

Lemma write_bytes i l fs c :
  k_disk (KAt (KDir fs c)) (KByte i <$> l) = KAt (KDir (alter (fmap (fun k => k ++ l)) i fs) c).
Proof.
  revert fs. induction l as [|b l IH]; intros fs; csimpl.
  - rewrite list_alter_id; [done|]. intros [k|]; csimpl; [by rewrite app_nil_r|done].
  - rewrite k_disk_cons. csimpl. rewrite IH. do 2 f_equal.
    rewrite <- list_alter_compose. apply list_alter_ext; [|done].
    intros [k|] _; csimpl; [|done]. by rewrite <- app_assoc.
Qed.

Lemma alter_mid {X} (f : X -> X) (pre rest : list X) x :
  alter f (length pre) (pre ++ x :: rest) = pre ++ f x :: rest.
Proof. rewrite alter_app_r_alt by lia. by rewrite Nat.sub_diag. Qed.
Lemma insert_mid {X} (y : X) (pre rest : list X) x :
  <[length pre := y]> (pre ++ x :: rest) = pre ++ y :: rest.
Proof. rewrite insert_app_r_alt by lia. by rewrite Nat.sub_diag. Qed.

Lemma left_none ks : left_by ks (replicate (length ks) None).
Proof. induction ks; constructor; [by left|done]. Qed.

(** A prefix of the writing of the key files. *)
Lemma write_prefix e ks : forall pre n c,
  exists gs, left_by ks gs /\
    k_disk (KAt (KDir (pre ++ replicate (length ks) None) c)) (take n (k_write_files e (length pre) ks).1) =
      KAt (KDir (pre ++ gs) c).
Proof.
  induction ks as [|k ks IH]; intros pre n c; csimpl.
  - rewrite take_nil. exists []. split; [constructor|done].
  - destruct (ke_open e (length pre)); csimpl.
    2:{ rewrite take_nil. exists (None :: replicate (length ks) None). split; [|done].
        constructor; [by left|]. apply left_none. }
    destruct n as [|n]; csimpl.
    { exists (None :: replicate (length ks) None). split; [|done].
      constructor; [by left|]. apply left_none. }
    rewrite k_disk_cons. csimpl. rewrite insert_mid, firstn_app, <- fmap_take, k_disk_app, write_bytes, alter_mid.
    csimpl. rewrite take_take.
    destruct (IH (pre ++ [Some (take (n `min` ke_written e (length pre)) k)])
                (n - length (KByte (length pre) <$> take (ke_written e (length pre)) k)) c) as (gs & Hgs & HE).
    rewrite app_length in HE. csimpl in HE. rewrite Nat.add_1_r, <- !app_assoc in HE. csimpl in HE.
    rewrite HE. eexists. split; [|done]. constructor; [right; by eexists|done].
Qed.
Lemma write_full e ks : forall pre c, (k_write_files e (length pre) ks).2 = true ->
  k_disk (KAt (KDir (pre ++ replicate (length ks) None) c)) (k_write_files e (length pre) ks).1 =
    KAt (KDir (pre ++ imap (fun j k => Some (take (ke_written e (length pre + j)) k)) ks) c).
Proof.
  induction ks as [|k ks IH]; intros pre c; csimpl; [done|].
  destruct (ke_open e (length pre)); csimpl; [|done]. intros Hok.
  rewrite k_disk_cons. csimpl. rewrite insert_mid, k_disk_app, write_bytes, alter_mid. csimpl.
  specialize (IH (pre ++ [Some (take (ke_written e (length pre)) k)]) c).
  rewrite app_length in IH. csimpl in IH. rewrite Nat.add_1_r, <- !app_assoc in IH. csimpl in IH.
  rewrite IH by done. rewrite Nat.add_0_r. do 4 f_equal. apply imap_ext. intros j x _. csimpl. do 3 f_equal. lia.
Qed.

(** The directory that a creation with keys [k0], [k1], [k2] leaves when it is interrupted:
    the files hold beginnings of the keys, and counters.dat comes after all of them. *)
Definition leaves (e : kenv) (k0 k1 k2 : bytes) (f : kfs) : Prop :=
  f = KNone \/
  exists gs c, f = KAt (KDir gs c) /\ left_by [k0; k1; k2] gs /\
    (c = true -> gs = [Some (take (ke_written e 0) k0); Some (take (ke_written e 1) k1); Some (take (ke_written e 2) k2)]).

Lemma creation_leaves e k0 k1 k2 tail n :
  let w := k_write_files e 0 [k0; k1; k2] in
  tail = [] \/ (tail = [KCounters] /\ w.2 = true) ->
  leaves e k0 k1 k2 (k_disk KNone (take n (KMkdir :: w.1 ++ tail))).
Proof.
  intros w Htail. destruct n as [|n]; [by left|]. right.
  cbn [take]. rewrite k_disk_cons, firstn_app, k_disk_app. cbn [k_apply].
  destruct (write_prefix e [k0; k1; k2] [] n false) as (gs & Hgs & HE). cbn [app length replicate] in HE.
  fold w in HE. rewrite HE. destruct Htail as [->|[-> Hok]].
  - rewrite take_nil. exists gs, false. done.
  - destruct (decide (n <= length w.1)) as [Hn|Hn].
    + replace (n - length w.1) with 0 by lia. exists gs, false. done.
    + destruct (n - length w.1) as [|m] eqn:Em; [lia|]. cbn [take].
      rewrite take_nil. exists gs, true. split; [done|]. split; [done|]. intros _.
      pose proof (write_full e [k0; k1; k2] [] false Hok) as HF. cbn [app length replicate] in HF. fold w in HF.
      rewrite take_ge in HE by lia. rewrite HE in HF. injection HF as ->. done.
Qed.

Lemma read_left k g o r i : left_of k o -> o = Some g -> length (k_read r i g) = length k -> k_read r i g = k.
Proof.
  unfold k_read. intros [->|[m ->]] [= <-]. rewrite take_take. intros Hl. apply take_ge.
  rewrite take_length in Hl. lia.
Qed.

Lemma d_construct_left r k0 k1 k2 gs c x :
  length k0 = 32 -> length k1 = 32 -> length k2 = 32 ->
  left_by [k0; k1; k2] gs -> d_construct r (KDir gs c) = Ok x -> x = DKeys k0 k1 k2 /\ c = true.
Proof.
  intros H0 H1 H2 Hl. unfold left_by in Hl.
  inversion Hl as [|? g0 ? ? L0 Hl1]; subst. inversion Hl1 as [|? g1 ? ? L1 Hl2]; subst.
  inversion Hl2 as [|? g2 ? ? L2 Hl3]; subst. inversion Hl3; subst. clear Hl Hl1 Hl2 Hl3.
  unfold d_construct. cbn [kd_files kd_counters].
  destruct g0 as [g0|], g1 as [g1|], g2 as [g2|]; try done.
  destruct c; [|done]. cbn [negb].
  do 3 (case_bool_decide; [|done]; cbn [negb]). destruct (kr_core r); [|done]. intros [= <-]. split; [|done].
  f_equal; eapply read_left; try done; lia.
Qed.

Lemma so_construct_left {K} (load : bytes -> option K) r k0 k1 k2 gs c x :
  length k1 = 32 -> length k2 = 32 -> load_prefix load k0 ->
  left_by [k0; k1; k2] gs -> so_construct load r (KDir gs c) = Ok x ->
  (exists t, load k0 = Some t /\ x = SoKeys t k1 k2) /\ c = true.
Proof.
  intros H1 H2 Hp Hl. unfold left_by in Hl.
  inversion Hl as [|? g0 ? ? L0 Hl1]; subst. inversion Hl1 as [|? g1 ? ? L1 Hl2]; subst.
  inversion Hl2 as [|? g2 ? ? L2 Hl3]; subst. inversion Hl3; subst. clear Hl Hl1 Hl2 Hl3.
  unfold so_construct. cbn [kd_files kd_counters].
  destruct g0 as [g0|], g1 as [g1|], g2 as [g2|]; try done.
  destruct c; [|done]. cbn [negb].
  do 2 (case_bool_decide; [|done]; cbn [negb]). unfold so_client.
  destruct (load (k_read r 0 g0)) as [t|] eqn:Et; [|done]. destruct (kr_core r); [|done].
  intros [= <-]. split; [|done]. exists t. split.
  - destruct L0 as [?|[m [= ->]]]; [done|]. unfold k_read in Et. rewrite take_take in Et.
    destruct (Hp (kr_read r 0 `min` m)) as [HN|HN]; congruence.
  - f_equal; eapply read_left; try done; lia.
Qed.

(** ** Sequences of attempts *)
Section attempts.
  Context {A : Type} (ctor : attempt -> kfs -> list keffect * res A).
  (** The client that an attempt would create. *)
  Variable made : attempt -> A -> Prop.
  Hypothesis made_fun : forall a c1 c2, made a c1 -> made a c2 -> c1 = c2.
  Variable ok : attempt -> Prop.
  Variable good : attempt -> kfs -> Prop.
  Hypothesis ctor_dir : forall a d, (ctor a (KAt d)).1 = [].
  Hypothesis ctor_none : forall a, ok a ->
    (forall n, k_disk KNone (take n (ctor a KNone).1) = KNone \/
               (exists d, k_disk KNone (take n (ctor a KNone).1) = KAt d /\ good a (KAt d))) /\
    (forall c, (ctor a KNone).2 = Ok c -> made a c) /\
    (forall c, (ctor a KNone).2 = Ok c -> k_disk KNone (ctor a KNone).1 <> KNone).
  Hypothesis good_made : forall a b d c, good a (KAt d) -> (ctor b (KAt d)).2 = Ok c -> made a c.

  Lemma attempts_dir a d l : good a (KAt d) ->
    (attempts ctor (KAt d) l).1 = KAt d /\
    forall c, Some c ∈ (attempts ctor (KAt d) l).2 -> made a c.
  Proof.
    intros Hg. induction l as [|b l IH]; csimpl.
    { split; [done|]. intros c Hc. by apply elem_of_nil in Hc. }
    rewrite ctor_dir.
    assert (match at_crash b with Some n => k_disk (KAt d) (take n []) | None => k_disk (KAt d) [] end = KAt d) as ->.
    { destruct (at_crash b); [by rewrite take_nil|done]. }
    split; [tauto|]. intros c Hc. apply elem_of_cons in Hc as [Hc|Hc]; [|by apply IH].
    destruct (at_crash b); [done|]. destruct (ctor b (KAt d)).2 eqn:E; try done.
    injection Hc as ->. by eapply good_made.
  Qed.

  Lemma attempts_none l : Forall ok l ->
    (forall c, Some c ∈ (attempts ctor KNone l).2 -> Exists (fun a => made a c) l) /\
    (forall c1 c2, Some c1 ∈ (attempts ctor KNone l).2 -> Some c2 ∈ (attempts ctor KNone l).2 -> c1 = c2).
  Proof.
    induction 1 as [|a l Ha _ IH]; csimpl.
    { split; intros c; [intros Hc|intros c2 Hc]; by apply elem_of_nil in Hc. }
    destruct (ctor_none a Ha) as (Hd & Hm & Hk).
    set (f' := match at_crash a with Some n => k_disk KNone (take n (ctor a KNone).1) | None => k_disk KNone (ctor a KNone).1 end).
    assert (f' = KNone \/ exists d, f' = KAt d /\ good a (KAt d)) as Hf'.
    { subst f'. destruct (at_crash a) as [n|]; [by apply Hd|].
      pose proof (Hd (length (ctor a KNone).1)) as H. by rewrite take_ge in H. }
    set (o := match at_crash a with Some _ => None | None => match (ctor a KNone).2 with Ok c => Some c | _ => None end end).
    assert (forall c, o = Some c -> made a c /\ f' <> KNone) as Ho.
    { subst o f'. destruct (at_crash a); [done|]. destruct (ctor a KNone).2 eqn:E; try done.
      intros c [= <-]. split; [by apply Hm|]. by eapply Hk. }
    clearbody f' o. destruct Hf' as [->|(d & -> & Hg)].
    - destruct o as [c|]; [exfalso; by apply (Ho c)|]. destruct IH as [IH1 IH2]. split.
      + intros c Hc. apply elem_of_cons in Hc as [?|Hc]; [done|]. right. by apply IH1.
      + intros c1 c2 Hc1 Hc2. apply elem_of_cons in Hc1 as [?|Hc1]; [done|].
        apply elem_of_cons in Hc2 as [?|Hc2]; [done|]. by apply IH2.
    - destruct (attempts_dir a d l Hg) as [_ Hall].
      assert (forall c, Some c ∈ o :: (attempts ctor (KAt d) l).2 -> made a c) as Hall'.
      { intros c Hc. apply elem_of_cons in Hc as [Hc|Hc]; [by apply Ho|by apply Hall]. }
      split.
      + intros c Hc. left. by apply Hall'.
      + intros c1 c2 Hc1 Hc2. eapply made_fun; by apply Hall'.
  Qed.
End attempts.
