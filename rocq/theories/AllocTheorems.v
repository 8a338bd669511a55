(** End-to-end statements about the allocator API. *)
From stdpp Require Import prelude.
From Coq Require Import ZArith Lia.
From Verif Require Import Base GraphModel GraphSpec GraphProofs GraphFlow GraphLifecycle
  AllocModel AllocSpec AllocProofs AllocFlow.
Local Open Scope Z_scope.

(** Everything a caller can see of a finished allocation. *)
Record api_alloc (n : nat) (page : Z) (its : list item) (a : allocator)
  (g : graph) (stash : list eptr) (xs : assignment) : Prop := ApiAlloc {
  aa_graph : get_allocation_graph a = Ok g;
  aa_stash : get_stashed_edges a = Ok stash;
  aa_parts : xs = assigned g its;
  aa_items : forall i it, its !! i = Some it -> exists e,
     g_edges g !! i = Some e /\ e_val e = Some (it_idx it) /\ e_cap e = it_len it /\
     e_start e = VInner (it_h0 it) /\ e_end e = VInner (it_h1 it);
  aa_fits : fits n page its xs;
  aa_min : forall xs', fits n page its xs' -> unplaced its xs <= unplaced its xs';
  aa_stashed : forall q, q ∈ stash <-> ep_rec q = false /\
     exists it x, its !! ep_idx q = Some it /\ xs !! ep_idx q = Some x /\ x.1 + x.2 < it_len it;
  aa_nodup : NoDup stash
}.

Lemma ssorted_NoDup s : ssorted s -> NoDup s.
Proof.
  unfold ssorted. induction 1 as [|p s Hs IH Hp]; constructor; auto.
  intros Hin. pose proof (proj1 (Forall_forall _ _) Hp p Hin) as H.
  unfold eptr_ltb in H. rewrite bool_decide_false in H by lia.
  rewrite bool_decide_true in H by done. simpl in H. by destruct (ep_rec p).
Qed.

Lemma allocated_api n page its a :
  allocated n page its a -> api_alloc n page its a (al_graph a) (al_stash a)
    (assigned (al_graph a) its).
Proof.
  intros [D Hs Hp Hl Hv (L & X & HE & Hlen & HL & HX & HF & HM & HS) HO].
  assert (EA : assigned (al_graph a) its = parts_of L).
  { unfold assigned, parts_of. rewrite HE, <- Hlen, take_app. done. }
  split; rewrite ?EA; auto.
  - unfold get_allocation_graph. by rewrite D.
  - unfold get_stashed_edges. by rewrite D.
  - intros i it Hit. destruct (Forall2_lookup_l _ _ _ _ _ HL Hit) as (e & He & (E1 & E2 & E3 & E4)).
    exists e. rewrite HE. split; [by apply lookup_app_l_Some|]. simpl in *. auto.
  - intros q. rewrite HS. unfold parts_of. split.
    + intros (Hr & it & e & Hit & He & Hlt). split; [done|]. exists it, (e_flow e, e_recf e).
      rewrite list_lookup_fmap, He. done.
    + intros (Hr & it & x & Hit & Hx & Hlt). split; [done|].
      rewrite list_lookup_fmap in Hx. destruct (L !! ep_idx q) as [e|] eqn:He; [|done].
      simpl in Hx. simplify_eq. exists it, e. done.
  - by apply ssorted_NoDup.
Qed.

Lemma alloc_api n page its a0 :
  0 <= page -> new_allocator n page = Ok a0 -> Forall (item_ok n page) its ->
  exists a1 a2 g stash xs,
    insert_items a0 its = Ok a1 /\
    (forall fuel, (alloc_fuel its <= fuel)%nat -> allocate fuel a1 = Ok a2) /\
    api_alloc n page its a2 g stash xs.
Proof.
  intros Hpage H0 Hok. destruct (new_allocator_ok n page a0 H0) as [_ A0].
  destruct (insert_items_ok n page its [] a0 A0 Hok) as (a1 & E1 & A1).
  destruct (allocate_ok n page its a1 Hpage Hok A1) as (a2 & E2 & AL).
  exists a1, a2, (al_graph a2), (al_stash a2), (assigned (al_graph a2) its).
  split_and!; auto. by apply allocated_api.
Qed.

(** * Histories *)
Inductive acall :=
| AInsert (h0 h1 : nat) (len : Z) (idx : option nat)
| AAllocate
| AStash
| AGraph.

Definition aupd (a : allocator) (r : res allocator) : allocator :=
  match r with Ok a' => a' | _ => a end.

(** The fuel given to the loop is the total capacity of the graph. *)
Definition graph_fuel (a : allocator) : nat := S (Z.to_nat (zsum (e_cap <$> g_edges (al_graph a)))).

Definition do_acall (a : allocator) (c : acall) : allocator * outcome :=
  match c with
  | AInsert h0 h1 len idx =>
      let r := alloc_insert a h0 h1 len idx in (aupd a r, outcome_of r)
  | AAllocate => let r := allocate (graph_fuel a) a in (aupd a r, outcome_of r)
  | AStash => (a, outcome_of (get_stashed_edges a))
  | AGraph => (a, outcome_of (get_allocation_graph a))
  end.

Fixpoint do_acalls (a : allocator) (cs : list acall) : allocator * list outcome :=
  match cs with
  | [] => (a, [])
  | c :: cs' =>
      let r := do_acall a c in let r' := do_acalls r.1 cs' in (r'.1, r.2 :: r'.2)
  end.

(** The specification: whether the allocation was run, and the accepted lists. *)
Definition spec_acall (n : nat) (page : Z) (st : bool * list item) (c : acall)
  : (bool * list item) * outcome :=
  match c with
  | AInsert h0 h1 len idx =>
      match idx with
      | Some i =>
          if negb st.1 && bool_decide (len <= page) && bool_decide (h0 < n)%nat &&
             bool_decide (h1 < n)%nat
          then ((st.1, st.2 ++ [Item h0 h1 len i]), Returned)
          else (st, Refused)
      | None => (st, Refused)
      end
  | AAllocate => if st.1 then (st, Refused) else ((true, st.2), Returned)
  | AStash | AGraph => (st, if st.1 then Returned else Refused)
  end.

Fixpoint spec_acalls (n : nat) (page : Z) (st : bool * list item) (cs : list acall)
  : (bool * list item) * list outcome :=
  match cs with
  | [] => (st, [])
  | c :: cs' =>
      let r := spec_acall n page st c in
      let r' := spec_acalls n page r.1 cs' in (r'.1, r.2 :: r'.2)
  end.

(** Lengths are size_t values. *)
Definition acall_ok (c : acall) : Prop :=
  match c with AInsert _ _ len _ => 0 <= len | _ => True end.

Definition ainv (n : nat) (page : Z) (st : bool * list item) (a : allocator) : Prop :=
  Forall (item_ok n page) st.2 /\
  if st.1 then allocated n page st.2 a else astate n page st.2 a.

Lemma graph_fuel_ok n page its a : astate n page its a -> (alloc_fuel its <= graph_fuel a)%nat.
Proof.
  intros A. unfold alloc_fuel, graph_fuel. rewrite (bs_edges _ _ _ (as_graph _ _ _ _ A)).
  rewrite <- list_fmap_compose. done.
Qed.

Lemma do_acall_step n page st a c :
  0 <= page -> ainv n page st a -> acall_ok c ->
  (do_acall a c).2 = (spec_acall n page st c).2 /\
  ainv n page (spec_acall n page st c).1 (do_acall a c).1 /\
  ((do_acall a c).2 = Refused -> (do_acall a c).1 = a).
Proof.
  intros Hpage [Hok Hinv] Hc. destruct st as [d its]. simpl in Hok, Hinv.
  destruct c as [h0 h1 len idx| | |].
  - destruct d.
    + destruct Hinv as [D Hs Hp Hl Hv Hsp HO].
      assert (E : alloc_insert a h0 h1 len idx = Throw InvalidArgument) by (unfold alloc_insert; by rewrite D).
      simpl. rewrite E. destruct idx; simpl; (split; [done|]; split; [|done]); split; done.
    + destruct idx as [i|].
      2: { unfold do_acall, alloc_insert. rewrite (as_done _ _ _ _ Hinv). simpl. split; [done|].
           split; [split; done|done]. }
      cbn [spec_acall fst snd negb andb].
      destruct (decide (len <= page /\ (h0 < n)%nat /\ (h1 < n)%nat)) as [(H1 & H2 & H3)|Hno].
      * rewrite !bool_decide_true by done. cbn [andb].
        assert (Hit : item_ok n page (Item h0 h1 len i)) by (split_and!; simpl in *; auto).
        destruct (alloc_insert_ok n page its a (Item h0 h1 len i) Hinv Hit) as (a' & E & A').
        simpl in E. simpl. rewrite E. simpl. split; [done|]. split; [|done]. split; [|done].
        apply Forall_app; split; [done|]. by constructor.
      * assert (HF : bool_decide (len <= page) && bool_decide (h0 < n)%nat && bool_decide (h1 < n)%nat = false).
        { repeat case_bool_decide; simpl; try done. exfalso. apply Hno. done. }
        rewrite HF. cbn [fst snd].
        assert (E : exists e, alloc_insert a h0 h1 len (Some i) = Throw e).
        { clear HF. unfold alloc_insert. rewrite (as_done _ _ _ _ Hinv), (as_page _ _ _ _ Hinv).
          case_bool_decide as H1; [eauto|]. unfold add_edge.
          rewrite (bs_state _ _ _ (as_graph _ _ _ _ Hinv)), (bs_size _ _ _ (as_graph _ _ _ _ Hinv)).
          case_bool_decide as H2; simpl; [eauto|]. case_bool_decide as H3; simpl; [eauto|].
          exfalso. apply Hno. lia. }
        destruct E as [e E]. cbn [do_acall]. rewrite E. simpl. split; [done|].
        split; [split; done|done].
  - destruct d; simpl.
    + unfold allocate. rewrite (ad_done _ _ _ _ Hinv). simpl. split; [done|].
      split; [split; done|done].
    + destruct (allocate_ok n page its a Hpage Hok Hinv) as (a' & E & A').
      rewrite (E _ (graph_fuel_ok _ _ _ _ Hinv)). simpl. split; [done|]. split; [split; done|done].
  - simpl. unfold get_stashed_edges. destruct d.
    + rewrite (ad_done _ _ _ _ Hinv). split; [done|]. split; [split; done|done].
    + rewrite (as_done _ _ _ _ Hinv). split; [done|]. split; [split; done|done].
  - simpl. unfold get_allocation_graph. destruct d.
    + rewrite (ad_done _ _ _ _ Hinv). split; [done|]. split; [split; done|done].
    + rewrite (as_done _ _ _ _ Hinv). split; [done|]. split; [split; done|done].
Qed.

Lemma do_acalls_spec n page cs : 0 <= page -> Forall acall_ok cs ->
  forall st a, ainv n page st a ->
  (do_acalls a cs).2 = (spec_acalls n page st cs).2 /\
  ainv n page (spec_acalls n page st cs).1 (do_acalls a cs).1.
Proof.
  intros Hpage Hcs. induction Hcs as [|c cs Hc Hcs IH]; intros st a I; simpl; [done|].
  destruct (do_acall_step n page st a c Hpage I Hc) as (H1 & H2 & _).
  destruct (IH _ _ H2) as [H3 H4]. split; [|done]. by rewrite H1, H3.
Qed.

Lemma alloc_history n page a0 cs c :
  0 <= page -> new_allocator n page = Ok a0 -> Forall acall_ok (cs ++ [c]) ->
  let a := (do_acalls a0 cs).1 in
  let st := (spec_acalls n page (false, []) cs).1 in
  (do_acalls a0 cs).2 = (spec_acalls n page (false, []) cs).2 /\
  (do_acall a c).2 = (spec_acall n page st c).2 /\
  ((do_acall a c).2 = Refused -> (do_acall a c).1 = a) /\
  (st.1 = true -> exists g stash xs, api_alloc n page st.2 a g stash xs).
Proof.
  intros Hpage H0 Hok a st. apply Forall_app in Hok as [Hcs Hc]. apply Forall_cons in Hc as [Hc _].
  destruct (new_allocator_ok n page a0 H0) as [_ A0].
  destruct (do_acalls_spec n page cs Hpage Hcs (false, []) a0) as [H1 H2].
  { split; [constructor|done]. }
  fold a in H2. fold st in H2.
  destruct (do_acall_step n page st a c Hpage H2 Hc) as (H3 & _ & H4).
  split_and!; auto. intros Hd. destruct H2 as [_ H2]. rewrite Hd in H2.
  eauto using allocated_api.
Qed.
