(** Proofs about the allocator. *)
From stdpp Require Import prelude.
From Coq Require Import ZArith Lia Sorting.Sorted.
From Verif Require Import Base GraphModel GraphSpec GraphProofs GraphSearch GraphFlow
  AllocModel AllocSpec.
Local Open Scope Z_scope.

Definition is_list (e : edge) : bool := match e_val e with Some _ => true | None => false end.

(** * The stash set *)
Lemma eptr_ltb_total p q : eptr_ltb p q = false -> eptr_ltb q p = false -> p = q.
Proof.
  destruct p as [r i], q as [r' i']. unfold eptr_ltb. simpl.
  repeat case_bool_decide; simpl; destruct r, r'; simpl; try done; intros; try lia; f_equal; lia.
Qed.

Lemma elem_of_set_insert p s q : q ∈ set_insert p s <-> q = p \/ q ∈ s.
Proof.
  induction s as [|r s IH]; simpl.
  - rewrite elem_of_list_singleton, elem_of_nil. tauto.
  - destruct (eptr_ltb p r) eqn:E1; [rewrite !elem_of_cons; tauto|].
    destruct (eptr_ltb r p) eqn:E2.
    + rewrite !elem_of_cons, IH. tauto.
    + rewrite (eptr_ltb_total p r E1 E2), elem_of_cons. tauto.
Qed.

(** The set is strictly sorted, hence without duplicates. *)
Definition ssorted (s : list eptr) : Prop := StronglySorted (fun p q => eptr_ltb p q = true) s.

Lemma eptr_ltb_trans p q r : eptr_ltb p q = true -> eptr_ltb q r = true -> eptr_ltb p r = true.
Proof.
  destruct p as [a i], q as [b j], r as [c k]. unfold eptr_ltb. simpl.
  repeat case_bool_decide; simpl; destruct a, b, c; simpl; try done; intros; try lia.
Qed.

Lemma set_insert_sorted p s : ssorted s -> ssorted (set_insert p s).
Proof.
  unfold ssorted. induction 1 as [|q s Hs IH Hq]; simpl.
  - repeat constructor.
  - destruct (eptr_ltb p q) eqn:E1.
    + constructor; [by constructor|]. constructor; [done|].
      eapply Forall_impl; [exact Hq|]. intros r Hr. by eapply eptr_ltb_trans.
    + destruct (eptr_ltb q p) eqn:E2.
      * constructor; [done|]. apply Forall_forall. intros r Hr.
        apply elem_of_set_insert in Hr as [->|Hr]; [done|]. by apply (proj1 (Forall_forall _ _) Hq).
      * by constructor.
Qed.

(** * Step 5: trimming *)
Definition pval (rec : bool) (e : edge) : Z := if is_list e then get_field rec e else 0.
Definition psum (rec : bool) (es : list edge) (l : list eptr) : Z :=
  zsum ((fun p => match es !! ep_idx p with Some e => pval rec e | None => 0 end) <$> l).

Lemma psum_ext rec es es' l :
  (forall p, p ∈ l -> es !! ep_idx p = es' !! ep_idx p) -> psum rec es l = psum rec es' l.
Proof. intros H. unfold psum. apply zsum_map_ext. intros p Hp. by rewrite H. Qed.

Lemma psum_sum rec es l s : sum_ptrs (pval rec) es l = Ok s -> psum rec es l = s.
Proof.
  revert s; induction l as [|p l IH]; intros s H; simpl in H; [by simplify_eq|].
  apply rbind_ok in H as (e & He & H). apply rbind_ok in H as (t & Ht & H). simplify_eq.
  apply vat_ok in He. unfold psum in *. csimpl. rewrite He, (IH t Ht). done.
Qed.

Lemma psum_idxs rec P es :
  psum rec es (idxs P 0 es) = zsum ((fun e => if P e then pval rec e else 0) <$> es).
Proof. apply psum_sum, sum_ptrs_idxs. Qed.

Definition nonneg (e : edge) : Prop := 0 <= e_flow e /\ 0 <= e_recf e.

(** Pointwise effect of trimming one side. *)
Definition trim1 (rec : bool) (e e' : edge) : Prop :=
  same_ends e e' /\ get_field (negb rec) e' = get_field (negb rec) e /\
  get_field rec e' <= get_field rec e /\ (nonneg e -> nonneg e') /\
  (is_list e = false -> e' = e).

Lemma trim1_refl rec e : trim1 rec e e.
Proof. unfold trim1, same_ends. split_and!; auto; lia. Qed.

Lemma trim1_trans rec a b c : trim1 rec a b -> trim1 rec b c -> trim1 rec a c.
Proof.
  intros ((A1 & A2 & A3 & A4) & A5 & A6 & A7 & A8) ((B1 & B2 & B3 & B4) & B5 & B6 & B7 & B8).
  unfold trim1, same_ends. split_and!; try congruence; auto; [lia|].
  intros H. rewrite B8, A8; auto. unfold is_list in *. by rewrite <- A4.
Qed.

Lemma Forall2_trans' {A} (R : A -> A -> Prop) l1 l2 l3 :
  (forall a b c, R a b -> R b c -> R a c) -> Forall2 R l1 l2 -> Forall2 R l2 l3 -> Forall2 R l1 l3.
Proof.
  intros HR H. revert l3. induction H as [|a b l k Hab H IH]; intros l3 H3;
    inversion H3; subst; constructor; eauto.
Qed.

Lemma Forall2_refl' {A} (R : A -> A -> Prop) l : (forall a, R a a) -> Forall2 R l l.
Proof. intros HR. induction l; constructor; auto. Qed.

Lemma Forall2_alter {A} (R : A -> A -> Prop) (f : A -> A) i (l : list A) x :
  (forall a, R a a) -> l !! i = Some x -> R x (f x) -> Forall2 R l (alter f i l).
Proof.
  intros Hr. revert i. induction l as [|y l IH]; intros [|i] Hx HR; simpl in *; try done.
  - simplify_eq. constructor; auto. by apply Forall2_refl'.
  - constructor; auto. by apply IH.
Qed.

Lemma trim_edges_ok page rec l :
  forall es load stash,
  NoDup (ep_idx <$> l) ->
  (forall p, p ∈ l -> ep_rec p = false /\ exists e, es !! ep_idx p = Some e) ->
  Forall nonneg es -> 0 <= load <= page ->
  exists es' load' stash', trim_edges page rec l es load stash = Ok (es', load', stash') /\
    Forall2 (trim1 rec) es es' /\
    (forall i, i ∉ ep_idx <$> l -> es' !! i = es !! i) /\
    load' = Z.min page (load + psum rec es l) /\ load' = load + psum rec es' l /\
    (forall q, q ∈ stash' <-> q ∈ stash \/
       (q ∈ l /\ exists e e', es !! ep_idx q = Some e /\ es' !! ep_idx q = Some e' /\
                get_field rec e' < get_field rec e)) /\
    (ssorted stash -> ssorted stash').
Proof.
  induction l as [|p l IH]; intros es load stash HN Hl Hnn Hload; simpl.
  - exists es, load, stash. split; [done|]. split; [apply Forall2_refl', trim1_refl|].
    split; [done|]. unfold psum. simpl. split_and!; try lia; auto.
    intros q. rewrite elem_of_nil. tauto.
  - csimpl in HN. apply NoDup_cons in HN as [Hp HN].
    destruct (Hl p) as (Hrec & e & He); [left|].
    assert (Hl' : forall p, p ∈ l -> ep_rec p = false /\ exists e, es !! ep_idx p = Some e)
      by (intros; apply Hl; by right).
    unfold vat. rewrite He. simpl.
    pose proof (Forall_lookup_1 _ _ _ _ Hnn He) as Hne.
    assert (Hfield : 0 <= get_field rec e) by (destruct rec; apply Hne).
    destruct (e_val e) as [vi|] eqn:Hval.
    + assert (His : is_list e = true) by (unfold is_list; by rewrite Hval).
      case_bool_decide as Hov.
      * set (es1 := alter (set_field rec (page - load)) (ep_idx p) es).
        assert (He1 : es1 !! ep_idx p = Some (set_field rec (page - load) e)).
        { unfold es1. by rewrite list_lookup_alter, He. }
        assert (Hs : trim1 rec e (set_field rec (page - load) e)).
        { unfold trim1, same_ends, nonneg. destruct rec; simpl in *; split_and!; auto; try lia; congruence. }
        assert (Hother : forall i, i <> ep_idx p -> es1 !! i = es !! i).
        { intros i Hi. unfold es1. by apply list_lookup_alter_ne. }
        assert (HT1 : Forall2 (trim1 rec) es es1) by (eapply Forall2_alter; eauto using trim1_refl).
        destruct (IH es1 page (set_insert p stash)) as (es' & load' & stash' & E & A & B & C & D & F & G).
        { done. }
        { intros q Hq. destruct (Hl' q Hq) as (? & e' & He'). split; [done|].
          destruct (decide (ep_idx q = ep_idx p)) as [->|Hneq]; [eauto|].
          rewrite Hother; eauto. }
        { apply Forall_lookup_2. intros i x Hx. destruct (decide (i = ep_idx p)) as [->|Hneq].
          - rewrite He1 in Hx. simplify_eq. by apply Hs.
          - rewrite Hother in Hx by done. by eapply Forall_lookup_1. }
        { lia. }
        assert (Hl_ne : forall q, q ∈ l -> ep_idx q <> ep_idx p).
        { intros q Hq Heq. apply Hp. rewrite <- Heq. apply elem_of_list_fmap. eauto. }
        assert (Hep : es' !! ep_idx p = Some (set_field rec (page - load) e)).
        { rewrite B by done. done. }
        exists es', load', stash'. split; [done|]. split.
        { eapply Forall2_trans'; [apply trim1_trans|exact HT1|exact A]. }
        split.
        { intros i Hi. csimpl in Hi. apply not_elem_of_cons in Hi as [H1 H2].
          rewrite B by done. by apply Hother. }
        assert (Hps : psum rec es1 l = psum rec es l).
        { apply psum_ext. intros q Hq. by apply Hother, Hl_ne. }
        assert (Hpnn : 0 <= psum rec es l).
        { unfold psum. clear -Hnn. induction l as [|q l IH]; csimpl; [lia|].
          destruct (es !! ep_idx q) as [x|] eqn:Hx; [|lia].
          assert (0 <= pval rec x); [|lia].
          pose proof (Forall_lookup_1 _ _ _ _ Hnn Hx) as [? ?]. unfold pval, get_field.
          destruct (is_list x), rec; lia. }
        rewrite Hps in C.
        assert (Hcons : psum rec es (p :: l) = get_field rec e + psum rec es l).
        { unfold psum. csimpl. rewrite He. unfold pval at 1. by rewrite His. }
        assert (Hcons' : psum rec es' (p :: l) = (page - load) + psum rec es' l).
        { unfold psum. csimpl. rewrite Hep. f_equal. unfold pval, is_list, get_field, set_field.
          destruct rec; simpl; by rewrite Hval. }
        rewrite Hcons, Hcons'. split; [lia|]. split; [lia|]. split.
        { intros q. rewrite F, elem_of_set_insert, elem_of_cons.
          assert (Hq1 : q ∈ l -> es1 !! ep_idx q = es !! ep_idx q) by (intros; by apply Hother, Hl_ne).
          split.
          - intros [[->|Hq]|[Hq Hx]]; auto.
            + right. split; [auto|]. exists e, (set_field rec (page - load) e). split_and!; auto.
              destruct rec; simpl in *; lia.
            + right. split; [auto|]. by rewrite <- Hq1.
          - intros [Hq|[[->|Hq] Hx]]; auto. right. split; [done|]. by rewrite Hq1. }
        { intros Hs'. apply G. by apply set_insert_sorted. }
      * destruct (IH es (load + get_field rec e) stash) as (es' & load' & stash' & E & A & B & C & D & F & G); auto.
        { lia. }
        assert (Hep : es' !! ep_idx p = Some e) by (by rewrite B).
        exists es', load', stash'. split; [done|]. split; [done|]. split.
        { intros i Hi. csimpl in Hi. apply not_elem_of_cons in Hi as [H1 H2]. by apply B. }
        assert (Hcons : psum rec es (p :: l) = get_field rec e + psum rec es l).
        { unfold psum. csimpl. rewrite He. unfold pval at 1. by rewrite His. }
        assert (Hcons' : psum rec es' (p :: l) = get_field rec e + psum rec es' l).
        { unfold psum. csimpl. rewrite Hep. unfold pval at 1. by rewrite His. }
        rewrite Hcons, Hcons'. split; [lia|]. split; [lia|]. split; [|done].
        intros q. rewrite F, elem_of_cons. split; [naive_solver|].
        intros [Hq|[[->|Hq] Hx]]; auto.
        destruct Hx as (x & x' & Hx1 & Hx2 & Hlt). rewrite He in Hx1. rewrite Hep in Hx2. simplify_eq. lia.
    + assert (His : is_list e = false) by (unfold is_list; by rewrite Hval).
      destruct (IH es load stash) as (es' & load' & stash' & E & A & B & C & D & F & G); auto.
      assert (Hep : es' !! ep_idx p = Some e) by (by rewrite B).
      exists es', load', stash'. split; [done|]. split; [done|]. split.
      { intros i Hi. csimpl in Hi. apply not_elem_of_cons in Hi as [H1 H2]. by apply B. }
      assert (Hcons : psum rec es (p :: l) = psum rec es l).
      { unfold psum. csimpl. rewrite He. unfold pval at 1. rewrite His. lia. }
      assert (Hcons' : psum rec es' (p :: l) = psum rec es' l).
      { unfold psum. csimpl. rewrite Hep. unfold pval at 1. rewrite His. lia. }
      rewrite Hcons, Hcons'. split; [lia|]. split; [lia|]. split; [|done].
      intros q. rewrite F, elem_of_cons. split; [naive_solver|].
      intros [Hq|[[->|Hq] Hx]]; auto.
      destruct Hx as (x & x' & Hx1 & Hx2 & Hlt). rewrite He in Hx1. rewrite Hep in Hx2. simplify_eq. lia.
Qed.

(** Load of a vertex. *)
Definition loadc (v : vptr) (e : edge) : Z :=
  (if ends v e then pval true e else 0) + (if starts v e then pval false e else 0).
Definition eload (es : list edge) (v : vptr) : Z := zsum (loadc v <$> es).

Lemma zsum_Forall2 {A B} (f : A -> Z) (g : B -> Z) l k :
  Forall2 (fun a b => f a = g b) l k -> zsum (f <$> l) = zsum (g <$> k).
Proof. induction 1 as [|a b l k H1 H2 IH]; csimpl; [done|]. by rewrite H1, IH. Qed.

Lemma eload_split es v :
  eload es v = psum true es (idxs (ends v) 0 es) + psum false es (idxs (starts v) 0 es).
Proof. rewrite !psum_idxs. unfold eload, loadc. by rewrite zsum_map_add. Qed.

(** Pointwise effect of trimming the vertices of a set. *)
Definition trimX (X : nat -> Prop) (e e' : edge) : Prop :=
  same_ends e e' /\ e_flow e' <= e_flow e /\ e_recf e' <= e_recf e /\
  (nonneg e -> nonneg e') /\ (is_list e = false -> e' = e) /\
  (forall i, e_end e = VInner i -> ~ X i -> e_recf e' = e_recf e) /\
  (forall i, e_start e = VInner i -> ~ X i -> e_flow e' = e_flow e).

Lemma idxs_NoDup P k es : NoDup (ep_idx <$> idxs P k es).
Proof.
  revert k. induction es as [|e es IH]; intros k; simpl; [constructor|].
  destruct (P e); csimpl; [|apply IH]. constructor; [|apply IH].
  intros Hin. apply elem_of_list_fmap in Hin as (p & Hp & Hin).
  apply elem_of_idxs in Hin as (i & x & _ & _ & ->). simpl in Hp. lia.
Qed.

Lemma idxs_notin P es i e :
  es !! i = Some e -> P e = false -> i ∉ ep_idx <$> idxs P 0 es.
Proof.
  intros He HP Hin. apply elem_of_list_fmap in Hin as (p & -> & Hin).
  apply elem_of_idxs in Hin as (j & x & Hx & HP' & ->). simpl in *. congruence.
Qed.

Lemma is_list_same e e' : same_ends e e' -> is_list e' = is_list e.
Proof. intros (_ & _ & _ & H). unfold is_list. by rewrite H. Qed.

Lemma trim_vertex_ok page i x es stash :
  adj_ok es (VInner i) x -> Forall nonneg es -> 0 <= page ->
  exists es' stash',
    (r1 <~ trim_edges page true (v_in x) es 0 stash;
     r2 <~ trim_edges page false (v_out x) r1.1.1 r1.1.2 r1.2;
     Ok (r2.1.1, r2.2)) = Ok (es', stash') /\
    Forall2 (trimX (fun k => k = i)) es es' /\
    eload es' (VInner i) = Z.min page (eload es (VInner i)) /\
    (forall q, q ∈ stash' <-> q ∈ stash \/
       (ep_rec q = false /\ exists e e', es !! ep_idx q = Some e /\ es' !! ep_idx q = Some e' /\
          (e_flow e' < e_flow e \/ e_recf e' < e_recf e))) /\
    (ssorted stash -> ssorted stash').
Proof.
  intros [Hin Hout] Hnn Hpage.
  destruct (trim_edges_ok page true (v_in x) es 0 stash) as (es1 & l1 & s1 & E1 & A1 & B1 & C1 & D1 & F1 & G1).
  { rewrite Hin. apply idxs_NoDup. }
  { intros p Hp. rewrite Hin in Hp. apply elem_of_idxs in Hp as (k & e & He & _ & ->). eauto. }
  { done. } { lia. }
  assert (Hsame1 : Forall2 same_ends es es1) by (eapply Forall2_impl; [exact A1|]; by intros ?? [? _]).
  assert (Hnn1 : Forall nonneg es1).
  { apply Forall_lookup_2. intros k e' He'. destruct (Forall2_lookup_r _ _ _ _ _ A1 He') as (e & He & HT).
    apply HT. by eapply Forall_lookup_1. }
  assert (Hin1 : idxs (ends (VInner i)) 0 es = idxs (ends (VInner i)) 0 es1).
  { apply idxs_ext. eapply Forall2_impl; [exact Hsame1|]. intros a b (_ & H & _). unfold ends. by rewrite H. }
  assert (Hout1 : idxs (starts (VInner i)) 0 es = idxs (starts (VInner i)) 0 es1).
  { apply idxs_ext. eapply Forall2_impl; [exact Hsame1|]. intros a b (H & _). unfold starts. by rewrite H. }
  assert (Hp0 : 0 <= psum true es (v_in x)).
  { rewrite Hin, psum_idxs. etransitivity; [|apply (zsum_map_le (fun _ => 0))].
    - by rewrite zsum_map_0.
    - intros e He. pose proof (proj1 (Forall_forall _ _) Hnn e He) as [? ?].
      unfold pval, get_field. destruct (ends _ e), (is_list e); lia. }
  destruct (trim_edges_ok page false (v_out x) es1 l1 s1) as (es2 & l2 & s2 & E2 & A2 & B2 & C2 & D2 & F2 & G2).
  { rewrite Hout. apply idxs_NoDup. }
  { intros p Hp. rewrite Hout, Hout1 in Hp. apply elem_of_idxs in Hp as (k & e & He & _ & ->). eauto. }
  { done. } { lia. }
  exists es2, s2. rewrite E1. simpl. rewrite E2. simpl. split; [done|].
  assert (Hsame2 : Forall2 same_ends es1 es2) by (eapply Forall2_impl; [exact A2|]; by intros ?? [? _]).
  assert (Hin2 : idxs (ends (VInner i)) 0 es1 = idxs (ends (VInner i)) 0 es2).
  { apply idxs_ext. eapply Forall2_impl; [exact Hsame2|]. intros a b (_ & H & _). unfold ends. by rewrite H. }
  assert (Hout2 : idxs (starts (VInner i)) 0 es1 = idxs (starts (VInner i)) 0 es2).
  { apply idxs_ext. eapply Forall2_impl; [exact Hsame2|]. intros a b (H & _). unfold starts. by rewrite H. }
  assert (Hlook : forall k e, es !! k = Some e -> exists e1 e2, es1 !! k = Some e1 /\ es2 !! k = Some e2 /\
     trim1 true e e1 /\ trim1 false e1 e2 /\
     (ends (VInner i) e = false -> e1 = e) /\ (starts (VInner i) e = false -> e2 = e1)).
  { intros k e He. destruct (Forall2_lookup_l _ _ _ _ _ A1 He) as (e1 & He1 & T1).
    destruct (Forall2_lookup_l _ _ _ _ _ A2 He1) as (e2 & He2 & T2).
    exists e1, e2. split_and!; auto.
    - intros H. rewrite B1 in He1; [congruence|]. rewrite Hin. by eapply idxs_notin.
    - intros H. rewrite B2 in He2; [congruence|]. rewrite Hout, Hout1. eapply idxs_notin; [exact He1|].
      destruct T1 as ((S1 & _) & _). unfold starts in *. by rewrite <- S1. }
  assert (Hpw : Forall2 (trimX (fun k => k = i)) es es2).
  { apply Forall2_same_length_lookup_2.
    { rewrite (Forall2_length _ _ _ A1). by eapply Forall2_length. }
    intros k e e2' He He2'. destruct (Hlook k e He) as (e1 & e2 & He1 & He2 & T1 & T2 & N1 & N2).
    rewrite He2 in He2'. simplify_eq.
    pose proof T1 as ((S1 & S2 & S3 & S4) & T1b & T1c & T1d & T1e).
    pose proof T2 as ((R1 & R2 & R3 & R4) & T2b & T2c & T2d & T2e). simpl in *.
    unfold trimX, same_ends. split_and!; try congruence; try lia; auto.
    - intros H. rewrite T2e, T1e; auto. by rewrite (is_list_same e e1) by done.
    - intros j Hj Hne. rewrite T2b. rewrite N1; [done|]. unfold ends. rewrite Hj.
      apply bool_decide_eq_false. congruence.
    - intros j Hj Hne. rewrite N2; [done|]. unfold starts. rewrite Hj.
      apply bool_decide_eq_false. congruence. }
  split; [done|]. split; [|split].
  - rewrite !eload_split. rewrite <- Hin2, <- Hin1, <- Hout2, <- Hout1, <- Hin, <- Hout.
    assert (P1 : psum false es1 (v_out x) = psum false es (v_out x)).
    { rewrite Hout. rewrite Hout1 at 1. rewrite !psum_idxs. symmetry. apply zsum_Forall2.
      eapply Forall2_impl; [exact A1|]. intros a b (Sab & T & _). simpl in T.
      unfold pval. rewrite (is_list_same _ _ Sab). destruct Sab as (Sab & _).
      unfold starts. rewrite Sab. simpl. by rewrite T. }
    assert (P2 : psum true es2 (v_in x) = psum true es1 (v_in x)).
    { rewrite Hin, Hin1. rewrite Hin2 at 1. rewrite !psum_idxs. symmetry. apply zsum_Forall2.
      eapply Forall2_impl; [exact A2|]. intros a b (Sab & T & _). simpl in T.
      unfold pval. rewrite (is_list_same _ _ Sab). destruct Sab as (_ & Sab & _).
      unfold ends. rewrite Sab. simpl. by rewrite T. }
    assert (Hp1 : 0 <= psum false es (v_out x)).
    { rewrite Hout, psum_idxs. etransitivity; [|apply (zsum_map_le (fun _ => 0))].
      - by rewrite zsum_map_0.
      - intros e He. pose proof (proj1 (Forall_forall _ _) Hnn e He) as [? ?].
        unfold pval, get_field. destruct (starts _ e), (is_list e); lia. }
    rewrite P1 in C2. rewrite P2. lia.
  - intros q. rewrite F2, F1. split.
    + intros [[Hq|(Hq & e & e1 & He & He1 & Hlt)]|(Hq & e1 & e2 & He1 & He2 & Hlt)]; [auto| |].
      * right. assert (ep_rec q = false).
        { rewrite Hin in Hq. by apply elem_of_idxs in Hq as (? & ? & ? & ? & ->). }
        split; [done|]. destruct (Hlook _ _ He) as (e1' & e2 & He1' & He2 & T1 & T2 & _).
        exists e, e2. split_and!; auto. right. simpl in Hlt. destruct T2 as (_ & T2 & _). simpl in T2.
        rewrite T2. congruence.
      * right. assert (ep_rec q = false).
        { rewrite Hout in Hq. by apply elem_of_idxs in Hq as (? & ? & ? & ? & ->). }
        split; [done|]. destruct (Forall2_lookup_r _ _ _ _ _ A1 He1) as (e & He & T1).
        exists e, e2. split_and!; auto. left. simpl in Hlt. destruct T1 as (_ & T1 & _). simpl in T1.
        by rewrite <- T1.
    + intros [Hq|(Hr & e & e2 & He & He2 & Hlt)]; [auto|].
      destruct (Hlook _ _ He) as (e1 & e2' & He1 & He2' & T1 & T2 & N1 & N2).
      rewrite He2 in He2'. simplify_eq. destruct q as [r k]. simpl in *. subst r.
      destruct T1 as (S1 & T1b & _). destruct T2 as (S2 & T2b & _). simpl in *.
      destruct Hlt as [Hlt|Hlt].
      * right. split.
        -- rewrite Hout. apply elem_of_idxs. exists k, e. split_and!; auto.
           destruct (starts (VInner i) e) eqn:Es; [done|]. rewrite N2 in Hlt by done. lia.
        -- exists e1, e2'. split_and!; auto. lia.
      * left. right. split.
        -- rewrite Hin. apply elem_of_idxs. exists k, e. split_and!; auto.
           destruct (ends (VInner i) e) eqn:Es; [done|]. rewrite N1 in T2b by done. lia.
        -- exists e, e1. split_and!; auto. lia.
  - auto.
Qed.

Lemma trimX_trans (X Y : nat -> Prop) a b c :
  trimX X a b -> trimX Y b c -> trimX (fun i => X i \/ Y i) a c.
Proof.
  intros ((A1 & A2 & A3 & A4) & A5 & A6 & A7 & A8 & A9 & A10)
         ((B1 & B2 & B3 & B4) & B5 & B6 & B7 & B8 & B9 & B10).
  unfold trimX, same_ends. split_and!; try congruence; try lia; auto.
  - intros H. rewrite B8, A8; auto. unfold is_list in *. by rewrite <- A4.
  - intros i Hi HX. rewrite (B9 i), (A9 i); auto. congruence.
  - intros i Hi HX. rewrite (B10 i), (A10 i); auto. congruence.
Qed.

(** Trimming other vertices does not change the load of a vertex. *)
Lemma eload_trimX (X : nat -> Prop) es es' i :
  Forall2 (trimX X) es es' -> ~ X i -> eload es' (VInner i) = eload es (VInner i).
Proof.
  intros H HX. unfold eload. symmetry. apply zsum_Forall2. eapply Forall2_impl; [exact H|].
  intros e e' (S & _ & _ & _ & _ & H1 & H2). unfold loadc, pval. rewrite (is_list_same _ _ S).
  destruct S as (S1 & S2 & _). unfold ends, starts. rewrite <- S1, <- S2. simpl.
  f_equal.
  - case_bool_decide as E; [|done]. by rewrite (H1 i).
  - case_bool_decide as E; [|done]. by rewrite (H2 i).
Qed.

Lemma trim_vertices_ok page vs :
  0 <= page ->
  forall k es stash,
  (forall j x, vs !! j = Some x -> adj_ok es (VInner (k + j)) x) -> Forall nonneg es ->
  exists es' stash', trim_vertices page vs es stash = Ok (es', stash') /\
    Forall2 (trimX (fun i => (k <= i < k + length vs)%nat)) es es' /\
    (forall i, (k <= i < k + length vs)%nat -> eload es' (VInner i) = Z.min page (eload es (VInner i))) /\
    (forall q, q ∈ stash' <-> q ∈ stash \/
       (ep_rec q = false /\ exists e e', es !! ep_idx q = Some e /\ es' !! ep_idx q = Some e' /\
          (e_flow e' < e_flow e \/ e_recf e' < e_recf e))) /\
    (ssorted stash -> ssorted stash').
Proof.
  intros Hpage. induction vs as [|x vs IH]; intros k es stash Hadj Hnn.
  - exists es, stash. split; [done|]. split.
    { apply Forall2_refl'. intros e. unfold trimX, same_ends. split_and!; auto; lia. }
    split; [simpl; intros; lia|]. split; [|done].
    intros q. split; [auto|]. intros [?|(_ & e & e' & He & He' & Hlt)]; [done|].
    rewrite He in He'. simplify_eq. lia.
  - destruct (trim_vertex_ok page k x es stash) as (es1 & s1 & E1 & T1 & L1 & F1 & G1).
    { specialize (Hadj 0%nat x eq_refl). by rewrite Nat.add_0_r in Hadj. } { done. } { done. }
    destruct (IH (S k) es1 s1) as (es2 & s2 & E2 & T2 & L2 & F2 & G2).
    { intros j y Hy. replace (S k + j)%nat with (k + S j)%nat by lia.
      eapply same_ends_adj; [|by apply Hadj]. eapply Forall2_impl; [exact T1|]. by intros ?? [? _]. }
    { apply Forall_lookup_2. intros i e' He'. destruct (Forall2_lookup_r _ _ _ _ _ T1 He') as (e & He & HT).
      apply HT. by eapply Forall_lookup_1. }
    exists es2, s2. split.
    { cbn [trim_vertices]. apply rbind_ok in E1 as (r1 & H1 & E1). rewrite H1. cbn [rbind].
      apply rbind_ok in E1 as (r2 & H2 & E1). rewrite H2. cbn [rbind]. simplify_eq. done. }
    split.
    { apply Forall2_same_length_lookup_2.
      { rewrite (Forall2_length _ _ _ T1). by eapply Forall2_length. }
      intros i e e2 He He2. destruct (Forall2_lookup_l _ _ _ _ _ T1 He) as (e1 & He1 & HT1).
      pose proof (Forall2_lookup_lr _ _ _ _ _ _ T2 He1 He2) as HT2.
      pose proof (trimX_trans _ _ _ _ _ HT1 HT2) as (A1 & A2 & A3 & A4 & A5 & A6 & A7).
      unfold trimX. split_and!; auto.
      - intros j Hj HX. apply (A6 j); auto. simpl in *. lia.
      - intros j Hj HX. apply (A7 j); auto. simpl in *. lia. }
    split.
    { intros i Hi. simpl in Hi. destruct (decide (i = k)) as [->|Hne].
      - rewrite (eload_trimX _ _ _ _ T2) by lia. done.
      - rewrite L2 by lia. by rewrite (eload_trimX _ _ _ _ T1) by lia. }
    split; [|auto].
    intros q. rewrite F2, F1. split.
    + intros [[Hq|(Hr & e & e1 & He & He1 & Hlt)]|(Hr & e1 & e2 & He1 & He2 & Hlt)]; [auto| |].
      * right. split; [done|]. destruct (Forall2_lookup_l _ _ _ _ _ T2 He1) as (e2 & He2 & HT2).
        exists e, e2. split_and!; auto. destruct HT2 as (_ & H1 & H2 & _). lia.
      * right. split; [done|]. destruct (Forall2_lookup_r _ _ _ _ _ T1 He1) as (e & He & HT1).
        exists e, e2. split_and!; auto. destruct HT1 as (_ & H1 & H2 & _). lia.
    + intros [Hq|(Hr & e & e2 & He & He2 & Hlt)]; [auto|].
      destruct (Forall2_lookup_l _ _ _ _ _ T1 He) as (e1 & He1 & HT1).
      destruct (decide (e_flow e1 < e_flow e \/ e_recf e1 < e_recf e)) as [Hd|Hd].
      * left. right. split; [done|]. exists e, e1. auto.
      * right. split; [done|]. exists e1, e2. split_and!; auto.
        destruct HT1 as (_ & H1 & H2 & _). lia.
Qed.
