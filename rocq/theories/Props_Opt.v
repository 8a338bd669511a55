(** The optionals given to the callbacks of Oceanus (C119, C120). *)
From stdpp Require Import prelude.
From Coq Require Import ZArith NArith Lia.
From Verif Require Import Base OptModel OptSpec.
Local Open Scope nat_scope.

Section proofs.
  Context {V : Type}.
  Variable moved : V -> V.
  Notation cc := (fmap (fmap (M:=option) (conc (V:=V)))).
  Implicit Type t : list (option (opt V)).
  Lemma var_cc (s : list (option (option V))) i o : s !! i = Some (Some o) -> var (cc s) i = Some (conc o).
  Proof. intros E. unfold var. rewrite list_lookup_fmap, E. done. Qed.
  Lemma var_lt t i o : var t i = Some o -> i < length t.
  Proof. unfold var. destruct (t !! i) eqn:E; [|done]. intros _. by eapply lookup_lt_Some. Qed.
  Lemma var_same t i o : i < length t -> var (<[i := o]> t) i = o.
  Proof. intros H. unfold var. by rewrite list_lookup_insert. Qed.
  Lemma var_other t i j o : i <> j -> var (<[i := o]> t) j = var t j.
  Proof. intros H. unfold var. by rewrite list_lookup_insert_ne. Qed.
  Lemma cc_insert (s : list (option (option V))) i o : cc (<[i := Some o]> s) = <[i := Some (conc o)]> (cc s).
  Proof. by rewrite list_fmap_insert. Qed.
  Lemma cc_remove (s : list (option (option V))) i : cc (<[i := None]> s) = <[i := None]> (cc s).
  Proof. by rewrite list_fmap_insert. Qed.
  Lemma cc_same (s : list (option (option V))) i o : s !! i = Some (Some o) -> cc s = <[i := Some (conc o)]> (cc s).
  Proof. intros E. symmetry. apply list_insert_id. by rewrite list_lookup_fmap, E. Qed.
  Lemma cc_none (s : list (option (option V))) i : s !! i = Some None -> cc s = <[i := None]> (cc s).
  Proof. intros E. symmetry. apply list_insert_id. by rewrite list_lookup_fmap, E. Qed.

  Lemma read_v t i o : var t i = Some o -> t_read t i = o_obj o.
  Proof. unfold t_read. by intros ->. Qed.
  Lemma init_v t i o : var t i = Some o -> is_init t i = Some (o_init o).
  Proof. unfold is_init. by intros ->. Qed.
  Lemma seti_v t i o b : var t i = Some o -> set_init t i b = Some (<[i := Some (Opt b (o_obj o))]> t).
  Proof. unfold set_init. by intros ->. Qed.
  Lemma seto_v t i o v : var t i = Some o -> set_obj t i v = Some (<[i := Some (Opt (o_init o) v)]> t).
  Proof. unfold set_obj. by intros ->. Qed.
  Lemma value_v (s : list (option (option V))) i o : s !! i = Some (Some o) -> value s i = o.
  Proof. unfold value. by intros ->. Qed.

  Ltac unf := unfold o_call, o_construct_from, o_assign, o_swap, o_initialize_from, o_initialize, o_destroy, o_clear,
     t_build, t_destroy, t_assign, t_left, outcome, answer, returned, remains.
  Ltac vars := repeat first [rewrite var_same by (rewrite ?insert_length; done) | rewrite var_other by done]; try eassumption; try reflexivity.
  Ltac look := repeat first
    [ progress cbn [mbind option_bind o_init o_obj fst snd]
    | erewrite init_v by vars | erewrite seti_v by vars | erewrite seto_v by vars | erewrite read_v by vars
    | match goal with |- context [var (<[_ := _]> _) _] => progress vars end
    | match goal with H : var ?t ?i = _ |- context [var ?t ?i] => rewrite H end
    | rewrite list_insert_insert ].
  Lemma conc_some (v : V) : conc (Some v) = Opt true (Some v).
  Proof. done. Qed.
  Lemma conc_none : conc (None : option V) = Opt false None.
  Proof. done. Qed.
  Lemma as_some (v w : V) f : assigned (Some v) w f = Some (match f with NoFail => w | Fail x _ => x end).
  Proof. by destruct f. Qed.
  Lemma as_none (w : V) f : assigned None w f = match f with NoFail => Some w | Fail _ _ => None end.
  Proof. by destruct f. Qed.
  Ltac ins := repeat first [rewrite list_lookup_insert by (rewrite ?insert_length; done) | rewrite list_lookup_insert_ne by done].
  Ltac same i := apply (f_equal Some); apply (f_equal2 pair); [|done];
     apply list_eq; intros k; destruct (decide (i = k)) as [<-|]; ins; rewrite ?list_lookup_fmap;
     repeat match goal with H : _ !! _ = _ |- _ => rewrite H; clear H end; done.
  Ltac same2 i j := apply (f_equal Some); apply (f_equal2 pair); [|done];
     apply list_eq; intros k; destruct (decide (i = k)) as [<-|]; [|destruct (decide (j = k)) as [<-|]]; ins; rewrite ?list_lookup_fmap;
     repeat match goal with H : _ !! _ = _ |- _ => rewrite H; clear H end; done.
  Ltac unset := cbn [fst snd]; unfold set; rewrite ?cc_insert, ?cc_remove, ?conc_some, ?conc_none.
  Lemma call_ok (s : list (option (option V))) c : legal s c -> o_call moved (cc s) c = Some (cc (ideal moved s c).1, (ideal moved s c).2).
  Proof.
    intros H. destruct c as [i|i v f|i j f|i j f|i|i|i j f|i j f|i v f|i v f|i j f|i j f|i|i|i v|i]; cbn [legal] in H; unfold ideal.
    - unfold o_call, o_fresh. rewrite list_lookup_fmap, H. unfold set. cbn [fst]. by rewrite cc_insert.
    - unfold o_call. rewrite list_lookup_fmap, H. unfold set. destruct f; cbn [fst]; [by rewrite cc_insert|done].
    - destruct H as [Hi [o Hj]]. assert (i <> j) by congruence. rewrite (value_v _ _ _ Hj). pose proof (var_cc _ _ _ Hj) as Vj.
      assert (Li : i < length (cc s)) by (rewrite fmap_length; by eapply lookup_lt_Some).
      unfold o_call, o_construct_from, o_fresh. rewrite list_lookup_fmap, Hi. change (fmap (M:=option) (fmap (M:=option) conc) (Some (None : option (option V)))) with (Some (None : option (opt V))).
      destruct o as [v|]; rewrite ?conc_some, ?conc_none in Vj; unf; look; [|by unset].
      destruct f; look; [by unset|]. cbn [fst]. by rewrite <- cc_none.
    - destruct H as [Hi [o Hj]]. assert (i <> j) by congruence. rewrite (value_v _ _ _ Hj). pose proof (var_cc _ _ _ Hj) as Vj.
      assert (Li : i < length (cc s)) by (rewrite fmap_length; by eapply lookup_lt_Some).
      assert (Lj : j < length (cc s)) by (rewrite fmap_length; by eapply lookup_lt_Some).
      unfold o_call, o_construct_from, o_fresh. rewrite list_lookup_fmap, Hi. change (fmap (M:=option) (fmap (M:=option) conc) (Some (None : option (option V)))) with (Some (None : option (opt V))).
      destruct o as [v|]; rewrite ?conc_some, ?conc_none in Vj; unf; look; [|by unset].
      destruct f; look; unset; same2 i j.
    - destruct H as [o Hi]. pose proof (var_cc _ _ _ Hi) as Vi.
      assert (Li : i < length (cc s)) by (rewrite fmap_length; by eapply lookup_lt_Some).
      destruct o as [v|]; rewrite ?conc_some, ?conc_none in Vi; unf; look; unset; same i.
    - destruct H as [o Hi]. pose proof (var_cc _ _ _ Hi) as Vi.
      assert (Li : i < length (cc s)) by (rewrite fmap_length; by eapply lookup_lt_Some).
      destruct o as [v|]; rewrite ?conc_some, ?conc_none in Vi; unf; look; unset; same i.
    - destruct H as [[o Hi] [o' Hj]]. pose proof (var_cc _ _ _ Hi) as Vi. pose proof (var_cc _ _ _ Hj) as Vj.
      assert (Li : i < length (cc s)) by (rewrite fmap_length; by eapply lookup_lt_Some).
      assert (Lj : j < length (cc s)) by (rewrite fmap_length; by eapply lookup_lt_Some).
      rewrite (value_v _ _ _ Hi), (value_v _ _ _ Hj).
      destruct (decide (i = j)) as [<-|Hne]; [assert (o = o') as <- by congruence; destruct o as [v|]|destruct o as [v|], o' as [v'|]];
        rewrite ?conc_some, ?conc_none in Vi; rewrite ?conc_some, ?conc_none in Vj; unf; rewrite ?as_some, ?as_none; destruct f; look; unset; try same2 i j; same i.
    - destruct H as [[o Hi] [o' Hj]]. pose proof (var_cc _ _ _ Hi) as Vi. pose proof (var_cc _ _ _ Hj) as Vj.
      assert (Li : i < length (cc s)) by (rewrite fmap_length; by eapply lookup_lt_Some).
      assert (Lj : j < length (cc s)) by (rewrite fmap_length; by eapply lookup_lt_Some).
      rewrite (value_v _ _ _ Hi), (value_v _ _ _ Hj).
      destruct (decide (i = j)) as [<-|Hne]; [assert (o = o') as <- by congruence; destruct o as [v|]|destruct o as [v|], o' as [v'|]];
        rewrite ?conc_some, ?conc_none in Vi; rewrite ?conc_some, ?conc_none in Vj; unf; rewrite ?as_some, ?as_none; destruct f; look; unset; try same2 i j; same i.
    - destruct H as [o Hi]. pose proof (var_cc _ _ _ Hi) as Vi.
      assert (Li : i < length (cc s)) by (rewrite fmap_length; by eapply lookup_lt_Some).
      rewrite (value_v _ _ _ Hi).
      destruct o as [w|]; rewrite ?conc_some, ?conc_none in Vi; unf; rewrite ?as_some, ?as_none; destruct f; look; unset; same i.
    - destruct H as [o Hi]. pose proof (var_cc _ _ _ Hi) as Vi.
      assert (Li : i < length (cc s)) by (rewrite fmap_length; by eapply lookup_lt_Some).
      destruct o as [w|]; rewrite ?conc_some, ?conc_none in Vi; unf; destruct f; look; unset; same i.
    - destruct H as ([o Hi] & Hne & v & Hj). pose proof (var_cc _ _ _ Hi) as Vi. pose proof (var_cc _ _ _ Hj) as Vj.
      assert (Li : i < length (cc s)) by (rewrite fmap_length; by eapply lookup_lt_Some).
      assert (Lj : j < length (cc s)) by (rewrite fmap_length; by eapply lookup_lt_Some).
      rewrite (value_v _ _ _ Hj). rewrite ?conc_some in Vj.
      destruct o as [w|]; rewrite ?conc_some, ?conc_none in Vi; unf; destruct f; look; unset; same2 i j.
    - destruct H as [[o Hi] [o' Hj]]. pose proof (var_cc _ _ _ Hi) as Vi. pose proof (var_cc _ _ _ Hj) as Vj.
      assert (Li : i < length (cc s)) by (rewrite fmap_length; by eapply lookup_lt_Some).
      assert (Lj : j < length (cc s)) by (rewrite fmap_length; by eapply lookup_lt_Some).
      rewrite (value_v _ _ _ Hi), (value_v _ _ _ Hj).
      destruct (decide (i = j)) as [<-|Hne]; [assert (o = o') as <- by congruence; destruct o as [v|]|destruct o as [v|], o' as [v'|]];
        rewrite ?conc_some, ?conc_none in Vi; rewrite ?conc_some, ?conc_none in Vj; unf; destruct f; look; unset; try same2 i j; same i.
    - destruct H as [v Hi]. pose proof (var_cc _ _ _ Hi) as Vi. rewrite (value_v _ _ _ Hi). unf. look. done.
    - destruct H as [[v|] Hi]; pose proof (var_cc _ _ _ Hi) as Vi; rewrite (value_v _ _ _ Hi); unf; rewrite ?conc_some, ?conc_none in Vi; look; done.
    - destruct H as [[w|] Hi]; pose proof (var_cc _ _ _ Hi) as Vi; rewrite (value_v _ _ _ Hi); unf; rewrite ?conc_some, ?conc_none in Vi; look; done.
    - destruct H as [[v|] Hi]; pose proof (var_cc _ _ _ Hi) as Vi; rewrite (value_v _ _ _ Hi); unf; rewrite ?conc_some, ?conc_none in Vi; look; done.
  Qed.
End proofs.

(** ** C119: optionals of any type, of which any operation may throw. *)
Lemma calls_ok {V} (moved : V -> V) cs : forall s, all_legal moved s cs ->
  o_calls moved (fmap (M:=option) conc <$> s) cs = Some (fmap (M:=option) conc <$> (ideals moved s cs).1, (ideals moved s cs).2).
Proof.
  induction cs as [|c cs IH]; intros s H; [done|]. destruct H as [Hc H]. cbn [o_calls ideals]. rewrite (call_ok moved s c Hc).
  cbn [mbind option_bind]. rewrite (IH _ H). done.
Qed.
(** The calls return or throw what is expected; no object is read that does not exist, destroyed
    twice or lost; and there is an object exactly where has_value() says so. *)
Theorem C119_calls :
  forall V (moved : V -> V) n cs,
    all_legal moved (replicate n None) cs ->
    let r := ideals moved (replicate n None) cs in
    exists s, o_calls moved (replicate n None) cs = Some (s, r.2) /\
      forall i, s !! i = fmap (M:=option) conc <$> r.1 !! i.
Proof.
  intros V moved n cs H r. pose proof (calls_ok moved cs _ H) as E. rewrite fmap_replicate in E. eexists. split; [exact E|].
  intros i. by rewrite list_lookup_fmap.
Qed.
Print Assumptions C119_calls.
(** Moves, a swap and an emplace that throws. *)
Definition ex_opt_calls : list (ocall nat) :=
  [ONew 0; OOf 1 7 NoFail; OCopy 2 1 NoFail; OAssign 0 1 (Fail 3 4); OMoveAssign 0 1 NoFail; OHas 1; OSwap 0 0 NoFail;
   OSwap 1 2 NoFail; OEmplace 2 9 (Fail 5 6); OValue 2; OValueOr 2 11; OMove 3 0 NoFail; OGet 3; OSwap 2 3 (Fail 5 6);
   OEmplaceFrom 2 1 NoFail; OSet 0 1 NoFail; OReset 1; ODestroy 3; OSwap 0 1 NoFail; ODestroy 0].
Example C119_example :
  all_legal (fun _ => 0) (replicate 4 None) ex_opt_calls /\
  ideals (fun _ => 0) (replicate 4 None) ex_opt_calls =
    ([None; Some (Some 1); Some (Some 7); None],
     [OUnit; OUnit; OUnit; OThrow; OUnit; OBool true; OUnit; OUnit; OThrow; OBad; OVal 11; OUnit; OVal 7; OThrow; OUnit; OUnit; OUnit; OUnit; OUnit; OUnit]).
Proof. split; [|by vm_compute]. cbn; unfold lives; cbn; split_and!; eauto. Qed.

(** Full statement refuted: a call that throws may have changed the value that it was to
    replace; and emplace with a reference to the value itself reads a destroyed object. *)
Theorem C119_refuted :
  (exists (s : list (option (option nat))) c r, legal s c /\ ideal (fun _ => 0) s c = (r, OThrow) /\ r <> s /\
     o_call (fun _ => 0) (fmap (M:=option) conc <$> s) c = Some (fmap (M:=option) conc <$> r, OThrow)) /\
  (exists (s : list (option (option nat))), value s 0 = Some 7 /\ o_call (fun _ => 0) (fmap (M:=option) conc <$> s) (OEmplaceFrom 0 0 NoFail) = None).
Proof.
  split.
  - exists [Some (Some 7)], (OEmplace 0 9 (Fail 0 0)), [Some None]. split_and!; [by eexists|done|done|by vm_compute].
  - exists [Some (Some 7)]. by vm_compute.
Qed.
Print Assumptions C119_refuted.
(** A call that throws has not changed whether the optionals hold a value, but for emplace. *)
Theorem C119_throw :
  forall V (moved : V -> V) s c s',
    legal s c -> ideal moved s c = (s', OThrow) -> (forall i v f, c <> OEmplace i v f) -> (forall i j f, c <> OEmplaceFrom i j f) ->
    forall i, (fmap (M:=option) (fun o : option V => bool_decide (is_Some o))) <$> s' !! i = (fmap (M:=option) (fun o : option V => bool_decide (is_Some o))) <$> s !! i.
Proof.
  intros V moved s c s' Hl E H1 H2 k.
  assert (Hset : forall (s : list (option (option V))) i o o', s !! i = Some (Some o) -> bool_decide (is_Some o) = bool_decide (is_Some o') ->
     (fmap (M:=option) (fun o : option V => bool_decide (is_Some o))) <$> set s i o' !! k = (fmap (M:=option) (fun o : option V => bool_decide (is_Some o))) <$> s !! k).
  { intros t i o o' Hi Ho. unfold set. destruct (decide (i = k)) as [<-|]; [|by rewrite list_lookup_insert_ne].
    rewrite list_lookup_insert by (by eapply lookup_lt_Some). rewrite Hi. simpl. by rewrite Ho. }
  assert (Hval : forall (t : list (option (option V))) i o, t !! i = Some (Some o) -> value t i = o) by (intros t i o; unfold value; by intros ->).
  destruct c as [i|i v f|i j f|i j f|i|i|i j f|i j f|i v f|i v f|i j f|i j f|i|i|i v|i]; cbn [legal] in Hl; unfold ideal in E.
  - done.
  - destruct f; [done|]. by injection E as <-.
  - destruct (value s j); [|done]. destruct f; [done|]. by injection E as <-.
  - destruct Hl as [_ [o Hj]]. rewrite (Hval _ _ _ Hj) in E. destruct o; [|done]. destruct f; [done|]. injection E as <-. by eapply Hset.
  - done.
  - done.
  - destruct Hl as [[o Hi] [o' Hj]]. rewrite (Hval _ _ _ Hj), (Hval _ _ _ Hi) in E. destruct o'; [|done]. destruct f; [done|]. injection E as <-.
    eapply Hset; [done|]. by destruct o.
  - destruct Hl as [[o Hi] [o' Hj]]. rewrite (Hval _ _ _ Hj), (Hval _ _ _ Hi) in E. destruct o' as [w|]; [|done]. destruct f; [done|]. injection E as <-.
    destruct (decide (i = j)) as [<-|Hne].
    + unfold set. rewrite list_insert_insert. by eapply Hset.
    + erewrite (Hset _ j (Some w)); [|unfold set; by rewrite list_lookup_insert_ne|done]. eapply Hset; [done|]. by destruct o.
  - destruct Hl as [o Hi]. rewrite (Hval _ _ _ Hi) in E. destruct f; [done|]. injection E as <-. eapply Hset; [done|]. by destruct o.
  - by destruct (H1 i v f).
  - by destruct (H2 i j f).
  - destruct Hl as [[o Hi] [o' Hj]]. rewrite (Hval _ _ _ Hj), (Hval _ _ _ Hi) in E.
    destruct o, o', f; try done; injection E as <-; [|by eapply Hset..].
    destruct (decide (i = j)) as [<-|Hne].
    + unfold set. rewrite list_insert_insert. by eapply Hset.
    + erewrite (Hset _ j); [by eapply Hset|unfold set; by rewrite list_lookup_insert_ne|done].
  - destruct (value s i); done.
  - destruct (value s i); done.
  - done.
  - done.
Qed.
Print Assumptions C119_throw.
Example C119_throw_example : let s := [Some (Some 1); Some None] in
  legal s (OSwap 0 1 (Fail 5 6)) /\ ideal (fun _ => 0) s (OSwap 0 1 (Fail 5 6)) = ([Some (Some 6); Some None], OThrow).
Proof. split; [by split; eexists|done]. Qed.

(** ** C120: comparisons. *)
(** When the six operators of T are those of one order, so are the thirty of its optionals. *)
Theorem C120_order :
  forall V le (t_op : cmp -> V -> V -> bool), respects le t_op ->
    forall c a b r, compare t_op c a b = Some r -> r = relation_of le c (operand_of a) (operand_of b).
Proof.
  intros V le t_op (_ & _ & H) c a b r E.
  destruct a as [|v|[v|]], b as [|w|[w|]]; cbn [compare] in E; try done; injection E as <-; destruct c; cbn;
    try (destruct (H v w) as (H1 & H2 & H3 & H4 & H5 & H6)); try (destruct (H w v) as (K1 & K2 & K3 & K4 & K5 & K6));
    rewrite ?H1, ?H2, ?H3, ?H4, ?H5, ?H6, ?K1, ?K2, ?K3, ?K4, ?K5, ?K6, ?negb_involutive; try done; by destruct (le v w), (le w v).
Qed.
Print Assumptions C120_order.
(** That relation is an order too. *)
Theorem C120_total :
  forall V le (t_op : cmp -> V -> V -> bool), respects le t_op ->
    (forall x y, before le x y = true \/ before le y x = true) /\
    (forall x y z, before le x y = true -> before le y z = true -> before le x z = true).
Proof.
  intros V le t_op (H1 & H2 & _). split.
  - intros [a|] [b|]; simpl; auto.
  - intros [a|] [b|] [c|]; simpl; try done. apply H2.
Qed.
Print Assumptions C120_total.
Definition nat_op (c : cmp) (a b : nat) : bool :=
  match c with CEq => a =? b | CNe => negb (a =? b) | CLt => a <? b | CGt => b <? a | CLe => a <=? b | CGe => b <=? a end.
Example C120_example : respects Nat.leb nat_op /\ compare nat_op CGt (Value 3) (Optional None) = Some true.
Proof.
  split; [|done]. split_and!.
  - intros a b. rewrite !Nat.leb_le. lia.
  - intros a b c. rewrite !Nat.leb_le. lia.
  - intros a b.
    assert (E : (a =? b) = (a <=? b) && (b <=? a)).
    { destruct (Nat.eqb_spec a b), (Nat.leb_spec a b), (Nat.leb_spec b a); simpl; try done; lia. }
    unfold nat_op. rewrite !Nat.ltb_antisym, E. done.
Qed.
(** The hash of equal optionals is the same. *)
Theorem C120_hash :
  forall V (t_op : cmp -> V -> V -> bool) t_hash, (forall a b, t_op CEq a b = true -> t_hash a = t_hash b) ->
    forall x y, oo t_op CEq x y = true -> o_hash t_hash x = o_hash t_hash y.
Proof. intros V t_op t_hash H [a|] [b|] E; simpl in *; try done. by apply H. Qed.
Print Assumptions C120_hash.
Example C120_hash_example : oo nat_op CEq (Some 3) (Some 3) = true /\ (forall a b, nat_op CEq a b = true -> N.of_nat a = N.of_nat b).
Proof. split; [done|]. intros a b E. apply Nat.eqb_eq in E. by subst. Qed.
(** Full statement refuted: with a value that compares with none (as a NaN), the same operator
    gives different results for a value and for an optional that holds it. *)
Theorem C120_refuted :
  exists (t_op : cmp -> option nat -> option nat -> bool) c v w,
    (forall c' (a b : option nat), t_op c' a b = match a, b with Some a, Some b => nat_op c' a b | _, _ => match c' with CNe => true | _ => false end end) /\
    compare t_op c (Optional (Some v)) (Optional (Some w)) <> compare t_op c (Optional (Some v)) (Value w).
Proof.
  exists (fun c' a b => match a, b with Some a, Some b => nat_op c' a b | _, _ => match c' with CNe => true | _ => false end end), CLe, (Some 1), None.
  split; [|done]. by intros [] [] [].
Qed.
Print Assumptions C120_refuted.
