(** Final theorems about the allocator (properties C06-C09). *)
From stdpp Require Import prelude.
From Coq Require Import ZArith Lia.
From Verif Require Import Base GraphModel GraphSpec GraphLifecycle AllocModel AllocSpec AllocTheorems.
Local Open Scope Z_scope.

(** Two bins of 4 entries and three lists; one list has twice the same bin.
    10 entries compete for 8 places. *)
Definition ex_its : list item :=
  [Item 0 1 4 0; Item 0 1 3 1; Item 0 0 3 2].
Example ex_its_ok : Forall (item_ok 2 4) ex_its.
Proof. repeat constructor; simpl; lia. Qed.
Definition ex_alloc : res (assignment * list eptr) :=
  a0 <~ new_allocator 2 4; a1 <~ insert_items a0 ex_its; a2 <~ allocate (alloc_fuel ex_its) a1;
  g <~ get_allocation_graph a2; s <~ get_stashed_edges a2; Ok (assigned g ex_its, s).
Example ex_alloc_run : exists xs s, ex_alloc = Ok (xs, s) /\ unplaced ex_its xs = 2 /\ s <> [] /\
  bin_load ex_its xs 0 = 4 /\ bin_load ex_its xs 1 = 4.
Proof. vm_compute. eexists _, _. split; [reflexivity|]. done. Qed.

(** ** C06: the load of each bin is at most the page size. *)
Theorem C06_capacity :
  forall n page its a0,
    0 <= page -> new_allocator n page = Ok a0 -> Forall (item_ok n page) its ->
    exists a1 a2 g,
      insert_items a0 its = Ok a1 /\
      (forall fuel, (alloc_fuel its <= fuel)%nat -> allocate fuel a1 = Ok a2) /\
      get_allocation_graph a2 = Ok g /\
      forall b, (b < n)%nat -> bin_load its (assigned g its) b <= page.
Proof.
  intros n page its a0 Hp H0 Hok.
  destruct (alloc_api n page its a0 Hp H0 Hok) as (a1 & a2 & g & s & xs & E1 & E2 & A).
  exists a1, a2, g. split_and!; auto; [apply A|].
  rewrite <- (aa_parts _ _ _ _ _ _ _ A). apply A.
Qed.
Print Assumptions C06_capacity.

(** ** C07: the parts of a list never exceed it; they cover it exactly unless
    the list is in the stashed set, and conversely. *)
Theorem C07_accounting :
  forall n page its a0,
    0 <= page -> new_allocator n page = Ok a0 -> Forall (item_ok n page) its ->
    exists a1 a2 g stash,
      insert_items a0 its = Ok a1 /\
      (forall fuel, (alloc_fuel its <= fuel)%nat -> allocate fuel a1 = Ok a2) /\
      get_allocation_graph a2 = Ok g /\ get_stashed_edges a2 = Ok stash /\ NoDup stash /\
      (forall q, q ∈ stash -> ep_rec q = false /\ (ep_idx q < length its)%nat) /\
      forall i it, its !! i = Some it ->
        exists e, g_edges g !! i = Some e /\
          e_val e = Some (it_idx it) /\ e_cap e = it_len it /\
          e_start e = VInner (it_h0 it) /\ e_end e = VInner (it_h1 it) /\
          0 <= e_flow e /\ 0 <= e_recf e /\ e_flow e + e_recf e <= it_len it /\
          (e_flow e + e_recf e = it_len it <-> EP false i ∉ stash).
Proof.
  intros n page its a0 Hp H0 Hok.
  destruct (alloc_api n page its a0 Hp H0 Hok) as (a1 & a2 & g & s & xs & E1 & E2 & A).
  exists a1, a2, g, s. split_and!; auto; try apply A.
  - intros q Hq. apply (aa_stashed _ _ _ _ _ _ _ A) in Hq as (Hr & it & x & Hit & _).
    split; [done|]. by eapply lookup_lt_Some.
  - intros i it Hit. destruct (aa_items _ _ _ _ _ _ _ A i it Hit) as (e & He & V & Hc & S & T).
    exists e. split_and!; auto.
    all: destruct (aa_fits _ _ _ _ _ _ _ A) as [HP _];
      assert (Hx : xs !! i = Some (e_flow e, e_recf e)) by
        (rewrite (aa_parts _ _ _ _ _ _ _ A); unfold assigned; rewrite list_lookup_fmap,
         lookup_take, He; [done|by eapply lookup_lt_Some]);
      pose proof (Forall2_lookup_lr _ _ _ _ _ _ HP Hit Hx) as (P1 & P2 & P3); simpl in *; auto.
    rewrite (aa_stashed _ _ _ _ _ _ _ A). simpl. split.
    + intros Heq (_ & it' & x & Hit' & Hx' & Hlt). simplify_eq. simpl in Hlt. lia.
    + intros Hno. destruct (decide (e_flow e + e_recf e = it_len it)) as [|Hne]; [done|].
      exfalso. apply Hno. split; [done|]. exists it, (e_flow e, e_recf e). simpl. split_and!; auto. lia.
Qed.
Print Assumptions C07_accounting.

(** ** C08: no assignment leaves fewer entries out. *)
Theorem C08_minimal_stash :
  forall n page its a0,
    0 <= page -> new_allocator n page = Ok a0 -> Forall (item_ok n page) its ->
    exists a1 a2 g,
      insert_items a0 its = Ok a1 /\
      (forall fuel, (alloc_fuel its <= fuel)%nat -> allocate fuel a1 = Ok a2) /\
      get_allocation_graph a2 = Ok g /\
      fits n page its (assigned g its) /\
      forall xs, fits n page its xs -> unplaced its (assigned g its) <= unplaced its xs.
Proof.
  intros n page its a0 Hp H0 Hok.
  destruct (alloc_api n page its a0 Hp H0 Hok) as (a1 & a2 & g & s & xs & E1 & E2 & A).
  exists a1, a2, g. rewrite <- (aa_parts _ _ _ _ _ _ _ A). split_and!; auto; apply A.
Qed.
Print Assumptions C08_minimal_stash.

(** ** C09: every sequence of calls behaves like the automaton [spec_acall];
    a refused call changes nothing; and whatever the history, a finished
    allocation concerns exactly the accepted lists. *)
Theorem C09_guards :
  forall n page a0 cs c,
    0 <= page -> new_allocator n page = Ok a0 -> Forall acall_ok (cs ++ [c]) ->
    let a := (do_acalls a0 cs).1 in
    let st := (spec_acalls n page (false, []) cs).1 in
    (do_acalls a0 cs).2 = (spec_acalls n page (false, []) cs).2 /\
    (do_acall a c).2 = (spec_acall n page st c).2 /\
    ((do_acall a c).2 = Refused -> (do_acall a c).1 = a) /\
    (st.1 = true -> exists g stash xs, api_alloc n page st.2 a g stash xs).
Proof. exact alloc_history. Qed.
Print Assumptions C09_guards.

Definition ex_acalls : list acall :=
  [AStash; AInsert 0 1 5 (Some 0%nat); AInsert 0 1 4 None; AInsert 0 2 4 (Some 0%nat);
   AInsert 0 1 4 (Some 0%nat); AAllocate; AInsert 0 1 1 (Some 1%nat); AAllocate; AGraph].
Example ex_acalls_run :
  Forall acall_ok ex_acalls /\
  (spec_acalls 2 4 (false, []) ex_acalls).2 =
  [Refused; Refused; Refused; Refused; Returned; Returned; Refused; Refused; Returned] /\
  (a0 <~ new_allocator 2 4; Ok (do_acalls a0 ex_acalls).2) =
  Ok (spec_acalls 2 4 (false, []) ex_acalls).2.
Proof. split; [repeat constructor; simpl; lia|]. by vm_compute. Qed.
