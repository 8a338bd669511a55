(** C126: optional references. *)
From stdpp Require Import prelude gmap.
From Verif Require Import OptRefModel OptRefSpec.

Section optref.
  Context {V : Type} `{!EqDecision V}.

  Definition agrees (h : list (rcall V)) (s : rstate V) : Prop :=
    (forall a, r_objs s !! a = value_of h a) /\
    (forall i, exists_var h i <-> is_Some (r_vars s !! i)) /\
    (forall i p, r_vars s !! i = Some p -> p = bound h i).

  Lemma agrees_var h s i : agrees h s -> exists_var h i -> r_vars s !! i = Some (bound h i).
  Proof. intros (_ & HE & HB) Hi. apply HE in Hi as [p Hp]. by rewrite Hp, (HB _ _ Hp). Qed.
  Lemma agrees_novar h s i : agrees h s -> ~ exists_var h i -> r_vars s !! i = None.
  Proof. intros (_ & HE & _) Hi. destruct (r_vars s !! i) eqn:E; [|done]. destruct Hi. apply HE. eauto. Qed.
  Lemma agrees_deref h s i : agrees h s -> r_deref s (bound h i) = seen h i.
  Proof. intros (HO & _). unfold r_deref, seen. destruct (bound h i); csimpl; [apply HO|done]. Qed.

  (** Changes of one variable. *)
  Lemma agrees_set h s i p c :
    agrees h s ->
    (forall a, value_of (c :: h) a = value_of h a) ->
    (forall k, exists_var (c :: h) k <-> k = i \/ exists_var h k) ->
    (forall k, bound (c :: h) k = if decide (k = i) then p else bound h k) ->
    agrees (c :: h) (r_set s i p).
  Proof.
    intros (HO & HE & HB) H1 H2 H3. split; [|split].
    - intros a. by rewrite H1.
    - intros k. rewrite H2, (HE k). unfold r_set; cbn [r_vars]. destruct (decide (k = i)) as [->|Hk].
      + rewrite lookup_insert. split; [eauto|by left].
      + rewrite lookup_insert_ne by done. split; [by intros [?|?]|by right].
    - intros k q. rewrite H3. unfold r_set; cbn [r_vars]. destruct (decide (k = i)) as [->|Hk].
      + rewrite lookup_insert. by intros [= ->].
      + rewrite lookup_insert_ne by done. apply HB.
  Qed.
  Lemma agrees_same h s c :
    agrees h s ->
    (forall a, value_of (c :: h) a = value_of h a) ->
    (forall k, exists_var (c :: h) k <-> exists_var h k) ->
    (forall k, bound (c :: h) k = bound h k) ->
    agrees (c :: h) s.
  Proof.
    intros (HO & HE & HB) H1 H2 H3. split; [|split].
    - intros a. by rewrite H1.
    - intros k. by rewrite H2.
    - intros k q. rewrite H3. apply HB.
  Qed.

  Ltac oset :=
    eapply agrees_set; [eassumption|done| |done || (intros k; cbn [bound]; by repeat case_decide; subst)];
    intros k; cbn [exists_var]; first [done | split; [by right|intros [->|?]; done]].

  Lemma has_bound (h : list (rcall V)) i : r_has (bound h i) = true <-> bound h i <> None.
  Proof. by destruct (bound h i). Qed.

  Lemma call_correct h s c :
    agrees h s -> may h c -> exists s' r, r_call s c = Some (s', r) /\ agrees (c :: h) s' /\ gives h c r.
  Proof.
    intros HA Hm. pose proof HA as (HO & HE & HB).
    destruct c as [a v|a|i|i a|i j|i|i|i j|i a|i j|i|i|i|i|i|i v|i v|i j]; cbn [may] in Hm; cbn [r_call gives].
    - rewrite HO, Hm. do 2 eexists. split; [done|]. split; [|done]. split; [|split].
      + intros b. cbn [r_objs value_of]. case_decide as Hd; [subst; by rewrite lookup_insert|by rewrite lookup_insert_ne].
      + done.
      + done.
    - rewrite HO. destruct Hm as [v Hv]. rewrite Hv; csimpl. do 2 eexists. split; [done|]. split; [|done]. split; [|split].
      + intros b. cbn [r_objs value_of]. case_decide as Hd; [subst; by rewrite lookup_delete|by rewrite lookup_delete_ne].
      + done.
      + done.
    - rewrite (agrees_novar h s i) by done. do 2 eexists. split; [done|]. split; [|done]. oset.
    - destruct Hm as [Hm [v Hv]]. rewrite (agrees_novar h s i), HO, Hv by done; csimpl.
      do 2 eexists. split; [done|]. split; [|done]. oset.
    - destruct Hm as [Hm Hj]. rewrite (agrees_novar h s i), (agrees_var h s j) by done; csimpl.
      do 2 eexists. split; [done|]. split; [|done]. oset.
    - rewrite (agrees_var h s i) by done; csimpl. do 2 eexists. split; [done|]. split; [|done]. split; [done|split].
      + intros k. cbn [exists_var r_vars]. rewrite (HE k). destruct (decide (k = i)) as [->|Hk].
        * rewrite lookup_delete. split; [by intros []|by intros []].
        * rewrite lookup_delete_ne by done. split; [by intros []|done].
      + intros k q. cbn [bound r_vars]. intros [_ Hq]%lookup_delete_Some. by apply HB.
    - rewrite (agrees_var h s i) by done; csimpl. do 2 eexists. split; [done|]. split; [|done]. oset.
    - destruct Hm as [Hi Hj]. rewrite (agrees_var h s i), (agrees_var h s j) by done; csimpl.
      do 2 eexists. split; [done|]. split; [|done]. oset.
    - destruct Hm as [Hi [v Hv]]. rewrite (agrees_var h s i), HO, Hv by done; csimpl.
      do 2 eexists. split; [done|]. split; [|done]. oset.
    - destruct Hm as [Hi Hj]. rewrite (agrees_var h s i), (agrees_var h s j) by done; csimpl.
      do 2 eexists. split; [done|]. split; [|done]. split; [done|split].
      + intros k. cbn [exists_var]. unfold r_set; cbn [r_vars]. rewrite (HE k).
        destruct (decide (k = j)) as [->|Hkj]; [rewrite lookup_insert; split; [eauto|intros _; by apply HE]|].
        rewrite lookup_insert_ne by done.
        destruct (decide (k = i)) as [->|Hki]; [rewrite lookup_insert; split; [eauto|intros _; by apply HE]|].
        by rewrite lookup_insert_ne.
      + intros k q. cbn [bound]. unfold r_set; cbn [r_vars].
        destruct (decide (k = j)) as [->|Hkj].
        { rewrite lookup_insert. intros [= <-]. by case_decide; subst. }
        rewrite lookup_insert_ne by done.
        destruct (decide (k = i)) as [->|Hki]; [rewrite lookup_insert; by intros [= <-]|].
        rewrite lookup_insert_ne by done. apply HB.
    - rewrite (agrees_var h s i) by done; csimpl. do 2 eexists. split; [done|]. split; [|done]. oset.
    - destruct Hm as [Hi [a Ha]]. rewrite (agrees_var h s i), Ha by done; csimpl.
      do 2 eexists. split; [done|]. split; [by apply agrees_same|]. eauto.
    - destruct Hm as [Hi [v Hv]]. rewrite (agrees_var h s i) by done; csimpl. rewrite (agrees_deref h s), Hv by done; csimpl.
      do 2 eexists. split; [done|]. split; [by apply agrees_same|]. eauto.
    - destruct Hm as [Hi Hs]. rewrite (agrees_var h s i) by done; csimpl. rewrite (agrees_deref h s) by done.
      destruct Hs as [Hs|[v Hv]].
      + unfold seen. rewrite Hs; csimpl. do 2 eexists. split; [done|]. split; [by apply agrees_same|done].
      + rewrite Hv. unfold seen in Hv. destruct (bound h i) eqn:Eb; [|done]; csimpl.
        do 2 eexists. split; [done|]. split; [by apply agrees_same|done].
    - rewrite (agrees_var h s i) by done; csimpl. do 2 eexists. split; [done|]. split; [by apply agrees_same|].
      eexists. split; [done|]. apply has_bound.
    - destruct Hm as [Hi Hs]. rewrite (agrees_var h s i) by done; csimpl. rewrite (agrees_deref h s) by done.
      destruct Hs as [Hs|[w Hw]].
      + unfold seen. rewrite Hs; csimpl. do 2 eexists. split; [done|]. split; [by apply agrees_same|done].
      + rewrite Hw. unfold seen in Hw. destruct (bound h i) eqn:Eb; [|done]; csimpl.
        do 2 eexists. split; [done|]. split; [by apply agrees_same|done].
    - destruct Hm as [Hi [w Hw]]. rewrite (agrees_var h s i) by done; csimpl. unfold seen in Hw.
      destruct (bound h i) as [a|] eqn:Eb; [|done]. csimpl in *. rewrite HO, Hw; csimpl.
      do 2 eexists. split; [done|]. split; [|done]. split; [|done].
      intros b. cbn [r_objs value_of]. rewrite Eb. case_decide as Hd.
      + injection Hd as ->. by rewrite lookup_insert.
      + rewrite lookup_insert_ne; [done|congruence].
    - destruct Hm as (Hi & Hj & Hc). rewrite (agrees_var h s i), (agrees_var h s j) by done; csimpl.
      unfold r_eq. rewrite !(agrees_deref h s) by done.
      destruct Hc as [Hc|[[v Hv] [w Hw]]].
      + destruct (bound h i) as [a|] eqn:Ei, (bound h j) as [b|] eqn:Ej; csimpl; [by destruct Hc| | |];
          (do 2 eexists; split; [done|]; split; [by apply agrees_same|]; eexists; split; [done|]);
          unfold seen; rewrite ?Ei, ?Ej; csimpl; split; try done; try (by left);
          intros [[? ?]|(? & ? & ?)]; done.
      + rewrite Hv, Hw. unfold seen in Hv, Hw.
        destruct (bound h i) as [a|] eqn:Ei; [|done]. destruct (bound h j) as [b|] eqn:Ej; [|done]. csimpl.
        do 2 eexists; split; [done|]; split; [by apply agrees_same|]; eexists; split; [done|].
        rewrite bool_decide_eq_true. split.
        * intros ->. right. eauto.
        * intros [[? ?]|(? & ? & ?)]; congruence.
  Qed.

  Lemma defined_may h s c s' r : agrees h s -> r_call s c = Some (s', r) -> may h c.
  Proof.
    intros HA Hc. pose proof HA as (HO & HE & HB).
    assert (HV : forall i p, r_vars s !! i = Some p -> exists_var h i /\ p = bound h i).
    { intros i p Hp. split; [apply HE; eauto|by apply HB]. }
    assert (HN : forall i, r_vars s !! i = None -> ~ exists_var h i).
    { intros i Hi [p Hp]%HE. congruence. }
    assert (HD : forall i, r_deref s (bound h i) = seen h i) by (intros; by apply agrees_deref).
    destruct c as [a v|a|i|i a|i j|i|i|i j|i a|i j|i|i|i|i|i|i v|i v|i j]; cbn [may r_call] in *;
      rewrite ?HO in Hc;
      repeat match goal with
      | H : (match r_vars s !! ?i with Some _ => None | None => _ end) = Some _ |- _ =>
          let E := fresh "E" in destruct (r_vars s !! i) eqn:E; [done|]; apply HN in E
      | H : (r_vars s !! ?i ≫= _) = Some _ |- _ =>
          apply bind_Some in H as (? & [? ->]%HV & H)
      | H : (value_of h ?i ≫= _) = Some _ |- _ =>
          apply bind_Some in H as (? & ? & H)
      end; eauto.
    - by destruct (value_of h a).
    - apply bind_Some in Hc as (a & Ha & _). eauto.
    - rewrite HD in Hc. apply bind_Some in Hc as (a & Ha & _). eauto.
    - rewrite HD in Hc. split; [done|]. unfold safe. destruct (bound h i) eqn:Eb; [|by left]. csimpl in Hc.
      apply bind_Some in Hc as (v & Hv & _). right. eauto.
    - rewrite HD in Hc. split; [done|]. unfold safe. destruct (bound h i) eqn:Eb; [|by left]. csimpl in Hc.
      apply bind_Some in Hc as (w & Hw & _). right. eauto.
    - split; [done|]. apply bind_Some in Hc as (a & Ha & Hc). rewrite HO in Hc. unfold seen. rewrite Ha. csimpl.
      apply bind_Some in Hc as (w & Hw & _). eauto.
    - split; [done|]. split; [done|]. apply bind_Some in Hc as (b & Hb & _). unfold r_eq in Hb. rewrite !HD in Hb.
      destruct (bound h i) as [a|] eqn:Ei; [|by left; left]. destruct (bound h j) as [b'|] eqn:Ej; [|by left; right].
      right. csimpl in Hb. apply bind_Some in Hb as (x & Hx & Hb). apply bind_Some in Hb as (y & Hy & _). eauto.
  Qed.

  Lemma calls_agree cs : forall h s,
    agrees h s ->
    (correct h cs <-> is_Some (r_calls s cs)) /\
    forall s' rs, r_calls s cs = Some (s', rs) -> agrees (rev cs ++ h) s' /\ all_give h cs rs.
  Proof.
    induction cs as [|c cs IH]; intros h s HA; cbn [correct r_calls].
    - split; [split; [eauto|done]|]. intros s' rs [= <- <-]. done.
    - split; [split|].
      + intros [Hm Hcs]. destruct (call_correct h s c HA Hm) as (s1 & r & Hc & HA1 & _). rewrite Hc; csimpl.
        destruct (proj1 (proj1 (IH _ _ HA1)) Hcs) as [[s2 l] Hl]. rewrite Hl; csimpl. eauto.
      + intros [x Hx]. apply bind_Some in Hx as ([s1 r] & Hc & Hx). pose proof (defined_may _ _ _ _ _ HA Hc) as Hm.
        split; [done|]. destruct (call_correct h s c HA Hm) as (s1' & r' & Hc' & HA1 & _).
        assert (s1' = s1) as -> by congruence. apply (IH _ _ HA1).
        apply bind_Some in Hx as (y & Hy & _). eauto.
      + intros s' rs Hx. apply bind_Some in Hx as ([s1 r] & Hc & Hx). pose proof (defined_may _ _ _ _ _ HA Hc) as Hm.
        destruct (call_correct h s c HA Hm) as (s1' & r' & Hc' & HA1 & Hg).
        assert (s1' = s1) as -> by congruence. assert (r' = r) as -> by congruence.
        apply bind_Some in Hx as ([s2 l] & Hl & [= <- <-]).
        destruct (proj2 (IH _ _ HA1) _ _ Hl) as [HA2 Hgs].
        cbn [rev all_give]. rewrite <- app_assoc. done.
  Qed.

  Lemma agrees_start : agrees [] (RState ∅ ∅).
  Proof.
    split; [|split].
    - intros a. apply lookup_empty.
    - intros i. cbn [exists_var r_vars]. rewrite lookup_empty. split; [done|by intros []].
    - intros i p. cbn [r_vars]. by rewrite lookup_empty.
  Qed.

  (** The calls are defined exactly when the program is correct, i.e. uses variables that exist
      and reads and writes through references to objects that are alive. *)
  Theorem C126_defined (cs : list (rcall V)) :
    is_Some (r_calls (RState ∅ ∅) cs) <-> correct [] cs.
  Proof. symmetry. apply calls_agree, agrees_start. Qed.

  (** Then each call gives what the calls before it say, each variable designates the object it
      was last bound to, and the objects have the values last written through a reference. *)
  Theorem C126_history (cs : list (rcall V)) s rs :
    r_calls (RState ∅ ∅) cs = Some (s, rs) ->
    all_give [] cs rs /\
    (forall a, r_objs s !! a = value_of (rev cs) a) /\
    (forall i, exists_var (rev cs) i -> r_vars s !! i = Some (bound (rev cs) i)) /\
    (forall i, ~ exists_var (rev cs) i -> r_vars s !! i = None).
  Proof.
    intros Hr. destruct (proj2 (calls_agree cs [] _ agrees_start) _ _ Hr) as [HA Hg].
    rewrite app_nil_r in HA. split; [done|]. split; [apply HA|]. split.
    - intros i. by apply agrees_var.
    - intros i. by apply agrees_novar.
  Qed.

  (** No call but a write through a reference changes an object that stays alive: assigning an
      optional reference never assigns the object. *)
  Theorem C126_objects (s s' : rstate V) c r a v w :
    r_call s c = Some (s', r) ->
    r_objs s !! a = Some v -> r_objs s' !! a = Some w -> v <> w ->
    exists i, c = RWrite i w /\ r_vars s !! i = Some (Some a).
  Proof.
    intros Hc Hv Hw Hne.
    destruct c as [b x|b|i|i b|i j|i|i|i j|i b|i j|i|i|i|i|i|i x|i x|i j]; cbn [r_call] in Hc;
      repeat match goal with
      | H : (match ?m !! ?i with Some _ => None | None => _ end) = Some _ |- _ =>
          let E := fresh "E" in destruct (m !! i) eqn:E; [done|]
      | H : (_ ≫= _) = Some _ |- _ => apply bind_Some in H as (? & ? & H)
      | H : (if ?b then _ else _) = Some _ |- _ => destruct b
      end; injection Hc as <- <-; cbn [r_objs r_set] in *; try congruence.
    - destruct (decide (a = b)) as [->|]; [congruence|]. rewrite lookup_insert_ne in Hw by done. congruence.
    - apply lookup_delete_Some in Hw as [_ Hw]. congruence.
    - match goal with H : _ !! i = Some ?p, H' : ?p = Some ?b |- _ => rewrite H' in H; destruct (decide (a = b)) as [->|] end.
      + rewrite lookup_insert in Hw. injection Hw as ->. eauto.
      + rewrite lookup_insert_ne in Hw by done. congruence.
  Qed.
End optref.

(** A reference does not keep its object alive: has_value() still says yes after the object is
    gone, and reading it is undefined. *)
Theorem C126_dangling_refuted :
  exists (cs : list (rcall nat)) s rs,
    r_calls (RState ∅ ∅) cs = Some (s, rs) /\ last rs = Some (RBool true) /\
    r_call s (RValue 0) = None /\ r_call s (ROr 0 5) = None.
Proof.
  exists [ONew 7 1; RBind 0 7; ODie 7; RHas 0]. eexists _, _.
  split; [vm_compute; reflexivity|]. split; [by vm_compute|]. split; by vm_compute.
Qed.

(** Being equal does not mean designating the same object, and does not last: a write through a
    third reference changes it. *)
Theorem C126_equal_refuted :
  exists (cs : list (rcall nat)) s rs,
    r_calls (RState ∅ ∅) cs = Some (s, rs) /\
    r_vars s !! 0 <> r_vars s !! 1 /\
    r_call s (REq 0 1) = Some (s, RBool true) /\
    exists s', r_call s (RWrite 2 4) = Some (s', RUnit) /\ r_call s' (REq 0 1) = Some (s', RBool false).
Proof.
  exists [ONew 7 1; ONew 8 1; RBind 0 7; RBind 1 8; RCopy 2 0]. eexists _, _.
  split; [vm_compute; reflexivity|]. split; [by vm_compute|]. split; [by vm_compute|].
  eexists. split; [vm_compute; reflexivity|by vm_compute].
Qed.

(** A program that uses every kind of call. *)
Example C126_example :
  let cs := [ONew 7 1; ONew 8 2; RNew 0; RValue 0; ROr 0 9; RBind 1 7; RAssign 0 1; RWrite 0 5; RDeref 1;
             REmplace 0 8; RDeref 1; RSwap 0 1; RValue 0; RArrow 1; RCopy 2 1; REq 1 2; REq 0 1; RNull 0;
             RHas 0; RReset 2; REq 0 2; RDel 2; ODie 8] in
  correct [] cs /\
  exists s, r_calls (RState ∅ ∅) cs =
    Some (s, [RUnit; RUnit; RUnit; RThrow; RVal 9; RUnit; RUnit; RUnit; RVal 5; RUnit; RVal 5; RUnit; RVal 5;
              RPtr 8; RUnit; RBool true; RBool false; RUnit; RBool false; RUnit; RBool true; RUnit; RUnit]).
Proof.
  intros cs. assert (He : exists s, r_calls (RState ∅ ∅) cs =
    Some (s, [RUnit; RUnit; RUnit; RThrow; RVal 9; RUnit; RUnit; RUnit; RVal 5; RUnit; RVal 5; RUnit; RVal 5;
              RPtr 8; RUnit; RBool true; RBool false; RUnit; RBool false; RUnit; RBool true; RUnit; RUnit])).
  { eexists. vm_compute. reflexivity. }
  split; [|done]. apply C126_defined. destruct He as [s Hs]. rewrite Hs. eauto.
Qed.

Print Assumptions C126_defined.
Print Assumptions C126_history.
Print Assumptions C126_objects.
Print Assumptions C126_dangling_refuted.
Print Assumptions C126_equal_refuted.
Print Assumptions C126_example.
