(** Proofs about the cuckoo allocator and the table built with it. *)
From stdpp Require Import prelude.
From Coq Require Import ZArith NArith Lia.
From Verif Require Import Base EncModel VecModel VecSpec VecProofs CuckooModel CuckooSpec.
Local Open Scope nat_scope.
Local Arguments N.of_nat : simpl never.
Local Arguments N.modulo : simpl never.
Local Arguments N.to_nat : simpl never.
Local Arguments N.pow : simpl never.

(** * Allocator *)
(** The slot of the value in table 0 is occupied. *)
Definition first_full (a : calloc) (v : cval) : Prop :=
  exists w, holds a (false, N.to_nat (cv_h0 v mod N.of_nat (ca_size a))%N) w.

Record ca_wf (a : calloc) : Prop := CaWf {
  wf_len0 : length (ca_t0 a) = ca_size a;
  wf_len1 : length (ca_t1 a) = ca_size a;
  wf_adm : forall s v, holds a s v -> admissible (ca_size a) s v;
  wf_first : forall loc v, holds a (true, loc) v -> first_full a v
}.

Lemma is_empty_true i : is_empty i = true <-> i = no_index.
Proof. unfold is_empty. by rewrite bool_decide_eq_true. Qed.
Lemma is_empty_false i : is_empty i = false <-> i <> no_index.
Proof. unfold is_empty. by rewrite bool_decide_eq_false. Qed.

Lemma ca_table_len t a : ca_wf a -> length (ca_table t a) = ca_size a.
Proof. intros [H0 H1 _ _]. by destruct t. Qed.

Lemma ca_set_size t loc v a : ca_size (ca_set t loc v a) = ca_size a.
Proof. by destruct t. Qed.
Lemma ca_set_depth t loc v a : ca_depth (ca_set t loc v a) = ca_depth a.
Proof. by destruct t. Qed.

Lemma first_full_set t loc v a w : full v -> first_full a w -> first_full (ca_set t loc v a) w.
Proof.
  intros Hv [x [Hx Hf]]. unfold first_full. rewrite ca_set_size. destruct t; [by exists x|]. simpl in *.
  destruct (decide (loc = N.to_nat (cv_h0 w mod N.of_nat (ca_size a))%N)) as [->|Hne].
  - exists v. split; [|done]. simpl. apply list_lookup_insert. by eapply lookup_lt_Some.
  - exists x. split; [|done]. simpl. by rewrite list_lookup_insert_ne.
Qed.

Lemma ca_set_wf t loc v a : ca_wf a -> admissible (ca_size a) (t, loc) v ->
  full v -> (t = true -> first_full a v) -> ca_wf (ca_set t loc v a).
Proof.
  intros [H0 H1 H2 H3] Ha Hv Ht. split.
  - destruct t; simpl; [done|]. by rewrite insert_length.
  - destruct t; simpl; [|done]. by rewrite insert_length.
  - intros [t' l'] w [Hw Hf]. rewrite ca_set_size. simpl in Hw.
    destruct t, t'; simpl in Hw.
    + apply list_lookup_insert_Some in Hw as [(-> & <- & _)|[_ Hw]]; [done|]. by apply H2.
    + by apply H2.
    + by apply H2.
    + apply list_lookup_insert_Some in Hw as [(-> & <- & _)|[_ Hw]]; [done|]. by apply H2.
  - intros l' w [Hw Hf]. simpl in Hw. apply first_full_set; [done|]. destruct t; simpl in Hw.
    + apply list_lookup_insert_Some in Hw as [(-> & <- & _)|[_ Hw]]; [by apply Ht|]. by apply (H3 l').
    + by apply (H3 l').
Qed.

Lemma ca_new_wf size depth : ca_wf (ca_new size depth).
Proof.
  split; simpl; [by rewrite replicate_length|by rewrite replicate_length| |].
  - intros [t l] v [H Hf]. exfalso. apply Hf. simpl in H.
    destruct t; by apply lookup_replicate in H as [-> _].
  - intros l v [H Hf]. exfalso. apply Hf. simpl in H. by apply lookup_replicate in H as [-> _].
Qed.

Lemma contents_new size depth : contents (ca_new size depth) = [].
Proof.
  unfold contents. simpl. rewrite <- replicate_add. induction (size + size) as [|n IH]; simpl; [done|].
  rewrite filter_cons_False; [done|]. unfold full. simpl. auto.
Qed.

Definition ne (v : cval) : list cval := filter full [v].

Lemma filter_insert_perm (l : list cval) i v old : l !! i = Some old ->
  ne v ++ filter full l ≡ₚ ne old ++ filter full (<[i := v]> l).
Proof.
  intros H. rewrite insert_take_drop by by eapply lookup_lt_Some.
  rewrite <- (take_drop_middle l i old H) at 1.
  rewrite !filter_app, !filter_cons. unfold ne. rewrite !filter_cons, filter_nil.
  repeat case_decide; simpl; solve_Permutation.
Qed.

Lemma contents_set t a loc v old : ca_table t a !! loc = Some old ->
  ne v ++ contents a ≡ₚ ne old ++ contents (ca_set t loc v a).
Proof.
  intros H. unfold contents. destruct t; simpl in *; rewrite !filter_app.
  - pose proof (filter_insert_perm _ _ v _ H) as P. revert P.
    generalize (filter full (ca_t0 a)) (filter full (ca_t1 a)) (filter full (<[loc:=v]> (ca_t1 a))).
    intros x y z P. rewrite (Permutation_app_comm x y), app_assoc, P.
    rewrite (Permutation_app_comm x z). by rewrite app_assoc.
  - rewrite !app_assoc. by rewrite (filter_insert_perm _ _ v _ H).
Qed.

(** One insertion. *)
Lemma ca_walk_spec n : forall t v a, ca_wf a -> 0 < ca_size a ->
  (t = true -> full v -> first_full a v) ->
  exists a' u found, ca_walk n t v a = Ok (a', cv_index u) /\ ca_wf a' /\
    ca_size a' = ca_size a /\ ca_depth a' = ca_depth a /\
    eviction a t v found a' u /\ length found <= n /\
    (full u -> length found = n /\ Forall full found) /\
    (~ full u -> full v -> exists found', found = found' ++ [u] /\ Forall full found') /\
    (~ full v -> found = [] /\ a' = a /\ u = v) /\
    ne v ++ contents a ≡ₚ ne u ++ contents a'.
Proof.
  induction n as [|n IH]; intros t v a W Hs Hfirst.
  - exists a, v, []. cbn [ca_walk]. split_and!; auto; try constructor.
    + intros. by exfalso.
  - cbn [ca_walk]. destruct (is_empty (cv_index v)) eqn:E.
    { apply is_empty_true in E. exists a, v, []. split_and!; auto using ev_nil; try (simpl; lia); unfold full in *; tauto. }
    apply is_empty_false in E. rewrite bool_decide_eq_false_2 by lia.
    set (loc := N.to_nat _).
    assert (Hadm : admissible (ca_size a) (t, loc) v).
    { unfold admissible, loc. simpl. rewrite N2Nat.id. by destruct t. }
    assert (Hlt : loc < length (ca_table t a)).
    { rewrite ca_table_len by done. unfold loc.
      pose proof (N.mod_lt (cv_h t v) (N.of_nat (ca_size a))). lia. }
    apply lookup_lt_is_Some_2 in Hlt as [old Hold]. unfold vat. rewrite Hold. cbn [rbind].
    assert (W1 : ca_wf (ca_set t loc v a)) by (apply ca_set_wf; auto).
    destruct (IH (negb t) old (ca_set t loc v a) W1) as
      (a' & u & found & -> & W' & S' & D' & Ev & HL & H1 & H2 & H3 & HP).
    { by rewrite ca_set_size. }
    { destruct t; [done|]. intros _ Ho. simpl in Hold.
      pose proof (wf_adm _ W (false, loc) old (conj Hold Ho)) as Ha. unfold admissible in Ha. simpl in Ha.
      exists v. split; [|done]. simpl. rewrite <- Ha, Nat2N.id. apply list_lookup_insert.
      by eapply lookup_lt_Some. }
    rewrite ca_set_size in S'. rewrite ca_set_depth in D'.
    exists a', u, (old :: found). split_and!; auto.
    + eapply (ev_cons _ _ _ _ _ _ _ _ (t, loc)); [done|done| |reflexivity|].
      * simpl. by destruct t.
      * by destruct t.
    + simpl. lia.
    + intros Hu. destruct (H1 Hu) as [HH HF]. split; [simpl; by rewrite HH|]. constructor; [|done].
      destruct (decide (full old)) as [|Hn]; [done|]. destruct (H3 Hn) as (_ & _ & ->). done.
    + intros Hu _. destruct (decide (full old)) as [Ho|Hn].
      * destruct (H2 Hu Ho) as (f' & -> & HF). exists (old :: f'). split; [done|by constructor].
      * destruct (H3 Hn) as (-> & _ & ->). by exists [].
    + intros H. by destruct (H E).
    + rewrite (contents_set t a loc v old) by done. done.
Qed.

Lemma ne_full v : full v -> ne v = [v].
Proof. intros H. unfold ne. by rewrite filter_cons_True, filter_nil. Qed.
Lemma ne_empty v : ~ full v -> ne v = [].
Proof. intros H. unfold ne. by rewrite filter_cons_False, filter_nil. Qed.

Lemma ca_inserts_spec l : forall a, ca_wf a -> 0 < ca_size a ->
  Forall (fun x => x.2 <> no_index) l ->
  exists a' outs sp, ca_inserts a l = Ok (a', outs) /\ ca_wf a' /\ ca_size a' = ca_size a /\
    length outs = length l /\ reported outs = cv_index <$> sp /\ Forall full sp /\
    (asked <$> l) ++ contents a ≡ₚ sp ++ contents a'.
Proof.
  induction l as [|[h i] l IH]; intros a W Hs HF.
  - exists a, [], []. by split_and!.
  - apply Forall_cons in HF as [Hi HF]. simpl in Hi. cbn [ca_inserts]. unfold ca_insert.
    rewrite bool_decide_eq_false_2 by done.
    destruct (ca_walk_spec (ca_depth a) false (CVal h.1 h.2 i) a W Hs ltac:(done)) as
      (a1 & u & found & -> & W1 & S1 & D1 & _ & _ & _ & _ & _ & HP). cbn [rbind fst snd].
    destruct (IH a1 W1) as (a' & outs & sp & -> & W' & S' & HL & HR & HS & HP'); [lia|done|].
    cbn [rbind fst snd]. exists a', (cv_index u :: outs), (ne u ++ sp). split_and!; auto.
    + by rewrite S', S1.
    + simpl. by rewrite HL.
    + unfold reported in *. destruct (decide (full u)) as [Hu|Hu].
      * rewrite filter_cons_True by done. rewrite ne_full by done. simpl. by rewrite HR.
      * rewrite filter_cons_False by tauto. rewrite ne_empty by done. done.
    + apply Forall_app. split; [|done]. apply Forall_forall. intros x Hx.
      by apply elem_of_list_filter in Hx as [? _].
    + rewrite fmap_cons. rewrite ne_full in HP by done. change (asked (h, i)) with (CVal h.1 h.2 i).
      revert HP HP'. simpl.
      generalize (contents a) (contents a1) (contents a') (asked <$> l). intros c c1 c' q HP HP'.
      rewrite (Permutation_middle q c), HP, <- app_assoc, <- HP'. solve_Permutation.
Qed.

Lemma ca_inserts_inv l : forall a a' outs, ca_wf a -> 0 < ca_size a ->
  ca_inserts a l = Ok (a', outs) -> ca_wf a' /\ ca_size a' = ca_size a /\ ca_depth a' = ca_depth a.
Proof.
  induction l as [|[h i] l IH]; intros a a' outs W Hs; cbn [ca_inserts].
  - intros [= -> _]. done.
  - unfold ca_insert. case_bool_decide; [done|].
    destruct (ca_walk_spec (ca_depth a) false (CVal h.1 h.2 i) a W Hs ltac:(done)) as
      (a1 & u & found & -> & W1 & S1 & D1 & _). cbn [rbind fst snd].
    intros E. apply rbind_ok in E as ([a2 o2] & E & [= -> _]). 
    destruct (IH a1 _ _ W1 ltac:(lia) E) as (W2 & S2 & D2). simpl in *. split_and!; [done|congruence..].
Qed.

Lemma holds_contents a v : v ∈ contents a <-> exists s, holds a s v.
Proof.
  unfold contents, holds. rewrite elem_of_list_filter, elem_of_app, !elem_of_list_lookup. split.
  - intros [Hf [[i Hi]|[i Hi]]]; [by exists (false, i)|by exists (true, i)].
  - intros [[[] i] [Hi Hf]]; split; auto; [right|left]; by exists i.
Qed.

(** With distinct values in the tables, a value is in one slot only. *)
Lemma nodup_slot a s s' v v' : NoDup (cv_index <$> contents a) ->
  holds a s v -> holds a s' v' -> cv_index v = cv_index v' -> s = s'.
Proof.
  intros HN. destruct s as [t i], s' as [t' i']. intros [H Hf] [H' Hf'] E. simpl in *.
  unfold contents in HN. rewrite filter_app, fmap_app in HN. apply NoDup_app in HN as (N0 & N1 & N2).
  assert (G : forall l : list cval, NoDup (cv_index <$> filter full l) ->
    forall i i', l !! i = Some v -> l !! i' = Some v' -> i = i').
  { clear -Hf Hf' E. intros l. induction l as [|x l IH]; [done|]. intros HN i i' Hi Hi'.
    destruct i as [|i], i' as [|i']; simpl in *; auto.
    - injection Hi as ->. rewrite filter_cons_True in HN by done. apply NoDup_cons in HN as [HN _].
      exfalso. apply HN. rewrite E. apply elem_of_list_fmap. exists v'. split; [done|].
      apply elem_of_list_filter. split; [done|]. by eapply elem_of_list_lookup_2.
    - injection Hi' as ->. rewrite filter_cons_True in HN by done. apply NoDup_cons in HN as [HN _].
      exfalso. apply HN. rewrite <- E. apply elem_of_list_fmap. exists v. split; [done|].
      apply elem_of_list_filter. split; [done|]. by eapply elem_of_list_lookup_2.
    - f_equal. eapply IH; eauto. rewrite filter_cons in HN. case_decide; [|done].
      by apply NoDup_cons in HN as [_ ?]. }
  destruct t, t'.
  - f_equal. by eapply (G (ca_t1 a)).
  - exfalso. apply (N1 (cv_index v)); apply elem_of_list_fmap.
    + exists v'. split; [done|]. apply elem_of_list_filter. split; [done|]. by eapply elem_of_list_lookup_2.
    + exists v. split; [done|]. apply elem_of_list_filter. split; [done|]. by eapply elem_of_list_lookup_2.
  - exfalso. apply (N1 (cv_index v)); apply elem_of_list_fmap.
    + exists v. split; [done|]. apply elem_of_list_filter. split; [done|]. by eapply elem_of_list_lookup_2.
    + exists v'. split; [done|]. apply elem_of_list_filter. split; [done|]. by eapply elem_of_list_lookup_2.
  - f_equal. by eapply (G (ca_t0 a)).
Qed.

(** * Builder *)
Definition payload (kv : bytes * bytes) : bytes := kv.1 ++ kv.2.
Definition slot_of (hash : bytes -> N * N) (i : nat) (kv : bytes * bytes) : cval :=
  CVal (hash kv.1).1 (hash kv.1).2 (N.of_nat i).

Record brep (sz size : nat) (hash : bytes -> N * N) (kvs : list (bytes * bytes)) (b : cbuilder) : Prop := BRep {
  br_open : cb_committed b = false;
  br_data : exists room, rep sz (IVec (payload <$> kvs) false false room) (cb_data b);
  br_wf : ca_wf (cb_alloc b);
  br_size : ca_size (cb_alloc b) = size;
  br_perm : exists sp, cb_spilled b = cv_index <$> sp /\ Forall full sp /\
    imap (slot_of hash) kvs ≡ₚ sp ++ contents (cb_alloc b)
}.

Lemma brep_new sz size depth max_n hash : 0 < sz -> brep sz size hash [] (cb_new sz size depth max_n []).
Proof.
  intros Hsz. split; simpl; [done| |apply ca_new_wf|done|].
  - pose proof (rep_step sz (empty_ivec false) _ (VReserve max_n) Hsz (rep_open sz false) I) as [R _].
    cbn [vec_call fst] in R. unfold ideal_call in R. simpl in R.
    case_decide; eexists; exact R.
  - exists []. rewrite contents_new. by split_and!.
Qed.

Lemma payload_len ksz vsz kvs : kv_ok ksz vsz kvs -> Forall (fun b => length b = ksz + vsz) (payload <$> kvs).
Proof.
  intros H. apply Forall_fmap. eapply Forall_impl; [exact H|]. intros [k v] [Hk Hv]. simpl in *.
  unfold payload. simpl. rewrite app_length. lia.
Qed.

Lemma brep_insert ksz vsz size hash kvs b k v : 0 < ksz + vsz -> 0 < size ->
  length k = ksz -> length v = vsz -> (N.of_nat (length kvs) < no_index)%N ->
  brep (ksz + vsz) size hash kvs b ->
  (cb_insert hash b k v).2 = Ok tt /\
  brep (ksz + vsz) size hash (kvs ++ [(k, v)]) (cb_insert hash b k v).1.
Proof.
  intros Hsz Hs Hk Hv HN [H1 [room H2] H3 H4 (sp & H5 & H6 & H7)]. unfold cb_insert. rewrite H1.
  destruct (rep_step _ _ _ (VPush false (k ++ v)) Hsz H2) as [R A].
  { simpl. rewrite app_length. lia. }
  cbn [vec_call fst snd] in R, A. cbn [answer iv_done iv_direct andb] in A.
  destruct (vec_push (cb_data b) false (k ++ v)) as [d r]. cbn [fst snd] in R, A.
  destruct r as [ptr| | |]; try done. cbn [rbind] in A. injection A as A.
  cbn [iv_vals] in A. rewrite fmap_length in A. subst ptr.
  unfold ca_insert. rewrite bool_decide_eq_false_2 by lia.
  destruct (ca_walk_spec (ca_depth (cb_alloc b)) false
     (CVal (hash k).1 (hash k).2 (N.of_nat (length kvs))) (cb_alloc b) H3) as
    (a' & u & found & -> & W & S' & D' & _ & _ & _ & _ & _ & HP); [lia|done|].
  cbn [fst snd]. split; [done|]. split; simpl.
  - done.
  - exists room. simpl in R. rewrite fmap_app. done.
  - done.
  - by rewrite S'.
  - exists (sp ++ ne u). rewrite fmap_app. split_and!.
    + destruct (decide (full u)) as [Hu|Hu].
      * rewrite (proj2 (is_empty_false _)) by done. by rewrite H5, ne_full.
      * rewrite (proj2 (is_empty_true _)) by (unfold full in Hu; destruct (decide (cv_index u = no_index)); tauto).
        rewrite H5, ne_empty by done. by rewrite app_nil_r.
    + apply Forall_app. split; [done|]. apply Forall_forall. intros x Hx.
      by apply elem_of_list_filter in Hx as [? _].
    + rewrite imap_app. simpl. rewrite Nat.add_0_r. unfold slot_of at 2. simpl.
      rewrite ne_full in HP by (unfold full; simpl; lia). revert H7 HP. simpl.
      generalize (contents (cb_alloc b)) (contents a') (imap (slot_of hash) kvs) (ne u).
      intros c c' q x H7 HP. rewrite H7. rewrite <- !app_assoc, <- HP. solve_Permutation.
Qed.

Lemma brep_inserts ksz vsz size hash l : 0 < ksz + vsz -> 0 < size -> forall kvs b,
  kv_ok ksz vsz l -> (N.of_nat (length kvs + length l) <= no_index)%N ->
  brep (ksz + vsz) size hash kvs b ->
  Forall (fun o => o = Ok tt) (cb_inserts hash b l).2 /\
  brep (ksz + vsz) size hash (kvs ++ l) (cb_inserts hash b l).1.
Proof.
  intros Hsz Hs. induction l as [|[k v] l IH]; intros kvs b HF HN R.
  - cbn [cb_inserts fst snd]. rewrite app_nil_r. done.
  - apply Forall_cons in HF as [[Hk Hv] HF]. cbn [fst snd] in Hk, Hv. cbn [cb_inserts fst snd].
    cbn [length] in HN.
    destruct (brep_insert ksz vsz size hash kvs b k v) as [A R']; auto; [lia|].
    destruct (IH (kvs ++ [(k, v)]) (cb_insert hash b k v).1 HF) as [A2 R2]; [|exact R'|].
    { rewrite app_length. simpl. lia. }
    rewrite <- app_assoc in R2. simpl in R2. split; [by constructor|done].
Qed.

(** * Commit *)
Definition entry (sz : nat) (kvs : list (bytes * bytes)) (s : cval) : bytes :=
  if decide (full s) then from_option payload [] (kvs !! N.to_nat (cv_index s)) else replicate sz 255%N.

Lemma get_of_rep sz s v i b : 0 < sz -> rep sz s v -> iv_done s = true -> iv_vals s !! i = Some b ->
  vec_get sz v i = Ok b.
Proof.
  intros Hsz R Hd Hi. pose proof (rep_get sz s v i Hsz R) as G.
  assert (i < length (iv_vals s)) by by eapply lookup_lt_Some.
  specialize (G ltac:(lia)). cbn [answer] in G. rewrite Hd, Hi in G.
  apply rbind_ok in G as (b' & -> & E). by injection E as ->.
Qed.

Lemma cb_write_spec sz kvs data room1 room slots : 0 < sz ->
  rep sz (IVec (payload <$> kvs) true false room1) data ->
  (forall s, s ∈ slots -> full s -> N.to_nat (cv_index s) < length kvs) ->
  forall vals out, rep sz (IVec vals false false room) out ->
  (cb_write sz data slots out).2 = Ok tt /\
  rep sz (IVec (vals ++ (entry sz kvs <$> slots)) false false room) (cb_write sz data slots out).1.
Proof.
  intros Hsz RD. induction slots as [|s slots IH]; intros Hin vals out R.
  - cbn [cb_write fst snd]. simpl. rewrite app_nil_r. done.
  - cbn [cb_write].
    assert (G : (if is_empty (cv_index s) then Ok (replicate sz 255%N)
       else vec_get sz data (N.to_nat (cv_index s))) = Ok (entry sz kvs s) /\ length (entry sz kvs s) = sz).
    { unfold entry, is_empty. case_bool_decide as E; case_decide as F; unfold full in F.
      - done.
      - split; [done|]. apply replicate_length.
      - assert (L : N.to_nat (cv_index s) < length kvs) by (apply Hin; [left|done]).
        apply lookup_lt_is_Some_2 in L as [kv L]. rewrite L. simpl.
        assert (Hp : (payload <$> kvs) !! N.to_nat (cv_index s) = Some (payload kv)).
        { by rewrite list_lookup_fmap, L. }
        split; [by apply (get_of_rep _ _ _ _ _ Hsz RD)|].
        apply (Forall_lookup_1 _ _ _ _ (rp_vals _ _ _ RD) Hp).
      - tauto. }
    destruct G as [-> HLn].
    destruct (rep_step _ _ _ (VPush false (entry sz kvs s)) Hsz R) as [R' A]; [done|].
    cbn [vec_call fst snd] in R', A. cbn [answer iv_done iv_direct andb] in A.
    destruct (vec_push out false (entry sz kvs s)) as [d r]. cbn [fst snd] in R', A.
    destruct r as [ptr| | |]; try done. cbn [ideal_call iv_done iv_direct orb andb iv_vals iv_room] in R'.
    destruct (IH ltac:(intros x Hx; apply Hin; by right) _ _ R') as [A2 R2]. split; [done|].
    rewrite fmap_cons. by rewrite <- app_assoc in R2.
Qed.

(** The file written by commit. *)
Lemma commit_spec sz size hash kvs b : 0 < sz -> 0 < size -> brep sz size hash kvs b ->
  (cb_commit sz b []).2 = Ok tt /\
  (cb_commit sz b []).1.2 = mjoin (entry sz kvs <$> ca_t0 (cb_alloc b) ++ ca_t1 (cb_alloc b)) /\
  Forall (fun e => length e = sz) (entry sz kvs <$> ca_t0 (cb_alloc b) ++ ca_t1 (cb_alloc b)).
Proof.
  intros Hsz Hs [H1 [room H2] H3 H4 (sp & H5 & H6 & H7)]. unfold cb_commit. rewrite H1.
  assert (RD : rep sz (IVec (payload <$> kvs) true false room) (vec_commit (cb_data b))).
  { by apply (rep_step sz _ _ VCommit Hsz H2 I). }
  assert (R0 : rep sz (IVec [] false false (2 * size))
     (vec_reserve sz (open_vec sz [] false) (2 * ca_size (cb_alloc b)))).
  { pose proof (rep_step sz (empty_ivec false) _ (VReserve (2 * size)) Hsz (rep_open sz false) I) as [R _].
    cbn [vec_call fst] in R. unfold ideal_call in R. simpl iv_done in R. simpl iv_vals in R.
    rewrite H4. rewrite decide_True in R by (simpl; lia). exact R. }
  assert (Hin : forall t s, s ∈ ca_table t (cb_alloc b) -> full s -> N.to_nat (cv_index s) < length kvs).
  { intros t s Hs' Hf. assert (Hc : s ∈ contents (cb_alloc b)).
    { unfold contents. apply elem_of_list_filter. split; [done|]. apply elem_of_app. destruct t; auto. }
    assert (Hq : s ∈ imap (slot_of hash) kvs) by (rewrite H7; apply elem_of_app; auto).
    apply elem_of_lookup_imap in Hq as (i & kv & -> & Hi). simpl. rewrite Nat2N.id.
    by eapply lookup_lt_Some. }
  destruct (cb_write_spec sz kvs (vec_commit (cb_data b)) room (2 * size) (ca_t0 (cb_alloc b)) Hsz RD
     (Hin false) [] _ R0) as [A1 R1].
  destruct (cb_write sz (vec_commit (cb_data b)) (ca_t0 (cb_alloc b)) _) as [out1 o1]. cbn [fst snd] in A1, R1.
  subst o1. cbn [fst snd].
  destruct (cb_write_spec sz kvs (vec_commit (cb_data b)) room (2 * size) (ca_t1 (cb_alloc b)) Hsz RD
     (Hin true) _ _ R1) as [A2 R2].
  destruct (cb_write sz (vec_commit (cb_data b)) (ca_t1 (cb_alloc b)) out1) as [out2 o2].
  cbn [fst snd] in A2, R2 |- *. rewrite app_nil_l, <- fmap_app in R2.
  assert (HLen : length (entry sz kvs <$> ca_t0 (cb_alloc b) ++ ca_t1 (cb_alloc b)) = 2 * size).
  { rewrite fmap_length, app_length. destruct H3 as [L0 L1 _ _]. rewrite L0, L1, H4. lia. }
  split_and!; [done| |apply (rp_vals _ _ _ R2)].
  unfold vec_close, vec_commit. rewrite (rep_wait _ _ _ R2). rewrite (rp_done _ _ _ R2). cbn [iv_done].
  cbn [v_file]. rewrite (rp_file _ _ _ R2). cbn [iv_vals iv_room]. rewrite HLen.
  replace (2 * size - 2 * size) with 0 by lia. simpl. by rewrite app_nil_r.
Qed.

(** Opening that file. *)
Lemma open_spec sz size (es : list bytes) : 0 < sz -> 0 < size -> length es = 2 * size ->
  Forall (fun e => length e = sz) es ->
  exists t, ct_open sz (mjoin es) = Ok t /\ ct_size t = size /\
    forall i e, es !! i = Some e -> vec_get sz (ct_vec t) i = Ok e.
Proof.
  intros Hsz Hs HL HF. pose proof (mjoin_len sz _ HF) as HM. unfold ct_open, open_vec.
  rewrite bool_decide_eq_true_2 by nia. cbn [v_committed negb v_size].
  rewrite HM, HL, Nat.div_mul by lia.
  rewrite bool_decide_eq_false_2 by (rewrite Nat.mul_comm, Nat.mod_mul by lia; lia).
  eexists. split; [done|]. cbn [ct_size ct_vec]. split; [rewrite Nat.mul_comm; apply Nat.div_mul; lia|].
  intros i e Hi. apply (get_of_rep sz (IVec es true false 0)); [done| |done|done].
  split; simpl; auto; [by rewrite app_nil_r|done].
Qed.

Lemma match_entry ksz vsz kvs s key : kv_ok ksz vsz kvs -> length key = ksz -> 0 < ksz ->
  (full s -> N.to_nat (cv_index s) < length kvs) -> (key <> ff_key ksz \/ full s) ->
  match_key (entry (ksz + vsz) kvs s) key = true ->
  full s /\ exists v, kvs !! N.to_nat (cv_index s) = Some (key, v) /\
    drop (length key) (entry (ksz + vsz) kvs s) = v.
Proof.
  intros HK Hk Hp Hin Hff. unfold match_key. rewrite bool_decide_eq_true. unfold entry.
  case_decide as F.
  - intros HT. split; [done|]. destruct (lookup_lt_is_Some_2 _ _ (Hin F)) as [[k v] E]. rewrite E in HT |- *.
    simpl in *. unfold payload in *. simpl in *.
    destruct (Forall_lookup_1 _ _ _ _ HK E) as [Hk' Hv']. simpl in *.
    rewrite take_app_alt in HT by lia. subst k. exists v. split; [done|].
    by rewrite drop_app.
  - intros HT. exfalso. destruct Hff as [Hff|]; [|done]. apply Hff. rewrite take_replicate in HT. rewrite <- HT.
    unfold ff_key. f_equal. lia.
Qed.

Lemma match_entry_refl ksz vsz kvs s key v : kv_ok ksz vsz kvs -> full s ->
  kvs !! N.to_nat (cv_index s) = Some (key, v) -> match_key (entry (ksz + vsz) kvs s) key = true.
Proof.
  intros HK F E. unfold match_key. rewrite bool_decide_eq_true. unfold entry. rewrite decide_True by done.
  rewrite E. simpl. unfold payload. simpl. apply take_app.
Qed.

Lemma slot_of_nodup hash kvs : NoDup (cv_index <$> imap (slot_of hash) kvs).
Proof.
  apply NoDup_alt. intros i j x. rewrite !list_lookup_fmap, !list_lookup_imap.
  destruct (kvs !! i), (kvs !! j); simpl; intros Hi Hj; try done.
  rewrite <- Hj in Hi. injection Hi as Hi. lia.
Qed.

(** Lookups in the table built from [kvs]. *)
Lemma build_spec ksz vsz size depth max_n hash kvs :
  0 < ksz -> 0 < size -> kv_ok ksz vsz kvs -> (N.of_nat (length kvs) <= no_index)%N ->
  exists b outs file t,
    cb_build (ksz + vsz) size depth max_n hash kvs = (b, outs, (file, Ok tt)) /\
    Forall (fun o => o = Ok tt) outs /\
    ct_open (ksz + vsz) file = Ok t /\
    forall key, length key = ksz ->
      (key <> ff_key ksz \/ exists i v, kvs !! i = Some (key, v) /\ N.of_nat i ∉ cb_spilled b) ->
      match ct_get (ksz + vsz) hash t key with
      | Ok v => exists i, kvs !! i = Some (key, v) /\ N.of_nat i ∉ cb_spilled b
      | Throw e => e = OutOfRange /\
          forall i v, kvs !! i = Some (key, v) -> N.of_nat i ∈ cb_spilled b
      | _ => False
      end.
Proof.
  intros Hks Hs HK HN. unfold cb_build.
  destruct (brep_inserts ksz vsz size hash kvs ltac:(lia) Hs [] _ HK HN
    (brep_new (ksz + vsz) size depth max_n hash ltac:(lia))) as [HO R]. rewrite app_nil_l in R.
  destruct (cb_inserts hash _ kvs) as [b outs]. cbn [fst snd] in HO, R |- *.
  destruct (commit_spec (ksz + vsz) size hash kvs b ltac:(lia) Hs R) as (A & Ef & HF).
  destruct (cb_commit (ksz + vsz) b []) as [[b' file] o]. cbn [fst snd] in A, Ef |- *. subst o file.
  set (slots := ca_t0 (cb_alloc b) ++ ca_t1 (cb_alloc b)) in *.
  pose proof R as [H1 _ H3 H4 (sp & H5 & H6 & H7)].
  assert (HL : length (entry (ksz + vsz) kvs <$> slots) = 2 * size).
  { rewrite fmap_length. unfold slots. rewrite app_length. destruct H3 as [L0 L1 _ _]. rewrite L0, L1, H4. lia. }
  destruct (open_spec (ksz + vsz) size _ ltac:(lia) Hs HL HF) as (t & Ht & Hts & Hget).
  exists b, outs, (mjoin (entry (ksz + vsz) kvs <$> slots)), t. split_and!; [done|done|done|].
  intros key Hk Hff. unfold ct_get. rewrite bool_decide_eq_false_2 by lia.
  assert (Hslot : forall (tb : bool) (h : N),
    exists s, ca_table tb (cb_alloc b) !! N.to_nat (h mod N.of_nat size)%N = Some s /\
      vec_get (ksz + vsz) (ct_vec t) (N.to_nat (h mod N.of_nat size)%N + (if tb then size else 0))
        = Ok (entry (ksz + vsz) kvs s)).
  { intros tb h. assert (HLt : N.to_nat (h mod N.of_nat size)%N < size).
    { pose proof (N.mod_lt h (N.of_nat size)). lia. }
    destruct (lookup_lt_is_Some_2 (ca_table tb (cb_alloc b)) (N.to_nat (h mod N.of_nat size)%N)) as [s E].
    { rewrite ca_table_len by done. lia. }
    exists s. split; [done|]. apply Hget. rewrite list_lookup_fmap. unfold slots.
    destruct H3 as [L0 L1 _ _]. destruct tb; simpl in E.
    - rewrite lookup_app_r by (rewrite L0, H4; apply Nat.le_add_l). rewrite L0, H4, Nat.add_sub.
      by rewrite E.
    - rewrite Nat.add_0_r. rewrite lookup_app_l by (rewrite L0, H4; exact HLt). by rewrite E. }
  assert (Hin : forall tb i s, ca_table tb (cb_alloc b) !! i = Some s -> full s -> N.to_nat (cv_index s) < length kvs).
  { intros tb i s Hi Hf. assert (Hc : s ∈ contents (cb_alloc b)).
    { apply holds_contents. exists (tb, i). split; [|done]. by destruct tb. }
    assert (Hq : s ∈ imap (slot_of hash) kvs) by (rewrite H7; apply elem_of_app; auto).
    apply elem_of_lookup_imap in Hq as (j & kv & -> & Hj). simpl. rewrite Nat2N.id.
    by eapply lookup_lt_Some. }
  assert (Hns : forall tb i s, ca_table tb (cb_alloc b) !! i = Some s -> full s ->
    N.of_nat (N.to_nat (cv_index s)) ∉ cb_spilled b).
  { intros tb i s Hi Hf Hx. rewrite N2Nat.id in Hx. assert (Hc : s ∈ contents (cb_alloc b)).
    { apply holds_contents. exists (tb, i). split; [|done]. by destruct tb. }
    pose proof (slot_of_nodup hash kvs) as ND. rewrite H7, fmap_app in ND.
    apply NoDup_app in ND as (_ & ND & _). apply (ND (cv_index s)); [by rewrite <- H5|].
    apply elem_of_list_fmap. by exists s. }
  assert (Hheld : forall i v, kvs !! i = Some (key, v) -> N.of_nat i ∉ cb_spilled b ->
    exists s, holds (cb_alloc b) s (slot_of hash i (key, v))).
  { intros i v Hi Hx. apply holds_contents.
    assert (Hq : slot_of hash i (key, v) ∈ sp ++ contents (cb_alloc b)).
    { rewrite <- H7. apply elem_of_lookup_imap. by exists i, (key, v). }
    apply elem_of_app in Hq as [Hq|Hq]; [|done]. exfalso. apply Hx.
    rewrite H5. apply elem_of_list_fmap. by exists (slot_of hash i (key, v)). }
  unfold ct_loc0, ct_loc1. rewrite Hts.
  destruct (Hslot false (hash key).1) as (s0 & E0 & G0). rewrite Nat.add_0_r in G0. rewrite G0. cbn [rbind].
  assert (F0 : key <> ff_key ksz \/ full s0).
  { destruct Hff as [|(i & v & Hi & Hx)]; [by left|]. right.
    destruct (Hheld i v Hi Hx) as [[[] loc] Hh].
    - destruct (wf_first _ H3 _ _ Hh) as [w [Hw Hwf]]. rewrite H4 in Hw. simpl in Hw, E0.
      rewrite Hw in E0. by injection E0 as <-.
    - pose proof (wf_adm _ H3 _ _ Hh) as Ha. unfold admissible in Ha. rewrite H4 in Ha. simpl in Ha.
      destruct Hh as [Hh Hf]. simpl in Hh, E0. rewrite <- Ha, Nat2N.id, Hh in E0. by injection E0 as <-. }
  destruct (match_key (entry (ksz + vsz) kvs s0) key) eqn:M0.
  { destruct (match_entry ksz vsz kvs s0 key HK Hk Hks (Hin _ _ _ E0) F0 M0) as (F & v & Ev & ->).
    eexists. split; [exact Ev|]. by apply (Hns _ _ _ E0). }
  destruct (Hslot true (hash key).2) as (s1 & E1 & G1). rewrite G1. cbn [rbind].
  assert (F1 : key <> ff_key ksz \/ full s1).
  { destruct Hff as [|(i & v & Hi & Hx)]; [by left|]. right.
    assert (Ekv : kvs !! N.to_nat (cv_index (slot_of hash i (key, v))) = Some (key, v)).
    { simpl. by rewrite Nat2N.id. }
    destruct (Hheld i v Hi Hx) as [[[] loc] Hh];
      pose proof (wf_adm _ H3 _ _ Hh) as Ha; unfold admissible in Ha; rewrite H4 in Ha; simpl in Ha;
      destruct Hh as [Hh Hf]; simpl in Hh.
    - simpl in E1. rewrite <- Ha, Nat2N.id, Hh in E1. by injection E1 as <-.
    - simpl in E0. rewrite <- Ha, Nat2N.id, Hh in E0. injection E0 as <-.
      by rewrite (match_entry_refl ksz vsz kvs _ key v HK Hf Ekv) in M0. }
  destruct (match_key (entry (ksz + vsz) kvs s1) key) eqn:M1.
  { destruct (match_entry ksz vsz kvs s1 key HK Hk Hks (Hin _ _ _ E1) F1 M1) as (F & v & Ev & ->).
    eexists. split; [exact Ev|]. by apply (Hns _ _ _ E1). }
  split; [done|]. intros i v Hi.
  assert (Hq : slot_of hash i (key, v) ∈ sp ++ contents (cb_alloc b)).
  { rewrite <- H7. apply elem_of_lookup_imap. by exists i, (key, v). }
  apply elem_of_app in Hq as [Hq|Hq].
  { rewrite H5. apply elem_of_list_fmap. by exists (slot_of hash i (key, v)). }
  exfalso. apply holds_contents in Hq as [[tb loc] Hh].
  pose proof (wf_adm _ H3 _ _ Hh) as Hadm. destruct Hh as [Hh Hf].
  unfold admissible in Hadm. simpl in Hadm, Hh. rewrite H4 in Hadm.
  assert (Ekv : kvs !! N.to_nat (cv_index (slot_of hash i (key, v))) = Some (key, v)).
  { simpl. by rewrite Nat2N.id. }
  destruct tb.
  - assert (loc = N.to_nat ((hash key).2 mod N.of_nat size)%N) as -> by (simpl in Hadm; lia).
    simpl in E1. rewrite Hh in E1. injection E1 as <-.
    by rewrite (match_entry_refl ksz vsz kvs _ key v HK Hf Ekv) in M1.
  - assert (loc = N.to_nat ((hash key).1 mod N.of_nat size)%N) as -> by (simpl in Hadm; lia).
    simpl in E0. rewrite Hh in E0. injection E0 as <-.
    by rewrite (match_entry_refl ksz vsz kvs _ key v HK Hf Ekv) in M0.
Qed.

(** The two slots of a key in the table built from [kvs]. *)
Lemma build_slots ksz vsz size depth max_n hash kvs :
  0 < ksz -> 0 < size -> kv_ok ksz vsz kvs -> (N.of_nat (length kvs) <= no_index)%N ->
  exists b outs file t,
    cb_build (ksz + vsz) size depth max_n hash kvs = (b, outs, (file, Ok tt)) /\
    ct_open (ksz + vsz) file = Ok t /\ ct_size t = size /\
    forall key, length key = ksz -> key <> ff_key ksz ->
      exists pl0 pl1, vec_get (ksz + vsz) (ct_vec t) (ct_loc0 hash t key) = Ok pl0 /\
        vec_get (ksz + vsz) (ct_vec t) (ct_loc1 hash t key) = Ok pl1 /\
        (NoDup kvs.*1 -> ~ (match_key pl0 key = true /\ match_key pl1 key = true)).
Proof.
  intros Hks Hs HK HN. unfold cb_build.
  destruct (brep_inserts ksz vsz size hash kvs ltac:(lia) Hs [] _ HK HN
    (brep_new (ksz + vsz) size depth max_n hash ltac:(lia))) as [HO R]. rewrite app_nil_l in R.
  destruct (cb_inserts hash _ kvs) as [b outs]. cbn [fst snd] in HO, R |- *.
  destruct (commit_spec (ksz + vsz) size hash kvs b ltac:(lia) Hs R) as (A & Ef & HF).
  destruct (cb_commit (ksz + vsz) b []) as [[b' file] o]. cbn [fst snd] in A, Ef |- *. subst o file.
  set (slots := ca_t0 (cb_alloc b) ++ ca_t1 (cb_alloc b)) in *.
  pose proof R as [H1 _ H3 H4 (sp & H5 & H6 & H7)].
  assert (HL : length (entry (ksz + vsz) kvs <$> slots) = 2 * size).
  { rewrite fmap_length. unfold slots. rewrite app_length. destruct H3 as [L0 L1 _ _]. rewrite L0, L1, H4. lia. }
  destruct (open_spec (ksz + vsz) size _ ltac:(lia) Hs HL HF) as (t & Ht & Hts & Hget).
  exists b, outs, (mjoin (entry (ksz + vsz) kvs <$> slots)), t. split_and!; [done|done|done|].
  intros key Hk Hff.
  assert (HLt : forall h : N, N.to_nat (h mod N.of_nat size)%N < size).
  { intros h. pose proof (N.mod_lt h (N.of_nat size)). lia. }
  destruct (lookup_lt_is_Some_2 (ca_t0 (cb_alloc b)) (N.to_nat ((hash key).1 mod N.of_nat size)%N)) as [s0 E0].
  { rewrite (wf_len0 _ H3), H4. apply HLt. }
  destruct (lookup_lt_is_Some_2 (ca_t1 (cb_alloc b)) (N.to_nat ((hash key).2 mod N.of_nat size)%N)) as [s1 E1].
  { rewrite (wf_len1 _ H3), H4. apply HLt. }
  exists (entry (ksz + vsz) kvs s0), (entry (ksz + vsz) kvs s1). unfold ct_loc0, ct_loc1. rewrite Hts.
  destruct H3 as [L0 L1 HA Hfirst]. split; [|split].
  - apply Hget. rewrite list_lookup_fmap. unfold slots.
    rewrite lookup_app_l by (rewrite L0, H4; apply HLt). by rewrite E0.
  - apply Hget. rewrite list_lookup_fmap. unfold slots.
    rewrite lookup_app_r by (rewrite L0, H4; apply Nat.le_add_l). by rewrite L0, H4, Nat.add_sub, E1.
  - intros ND [M0 M1].
    assert (Hin : forall tb i s, ca_table tb (cb_alloc b) !! i = Some s -> full s -> N.to_nat (cv_index s) < length kvs).
    { intros tb i s Hi Hf. assert (Hc : s ∈ contents (cb_alloc b)).
      { apply holds_contents. exists (tb, i). split; [|done]. by destruct tb. }
      assert (Hq : s ∈ imap (slot_of hash) kvs) by (rewrite H7; apply elem_of_app; auto).
      apply elem_of_lookup_imap in Hq as (j & kv & -> & Hj). simpl. rewrite Nat2N.id.
      by eapply lookup_lt_Some. }
    destruct (match_entry ksz vsz kvs s0 key HK Hk Hks (Hin false _ _ E0) (or_introl Hff) M0) as (F0 & v0 & K0 & _).
    destruct (match_entry ksz vsz kvs s1 key HK Hk Hks (Hin true _ _ E1) (or_introl Hff) M1) as (F1 & v1 & K1 & _).
    assert (Ei : N.to_nat (cv_index s0) = N.to_nat (cv_index s1)).
    { eapply (NoDup_lookup kvs.*1 _ _ key); [done|..]; rewrite list_lookup_fmap; [by rewrite K0|by rewrite K1]. }
    pose proof (slot_of_nodup hash kvs) as NDs. rewrite H7, fmap_app in NDs.
    apply NoDup_app in NDs as (_ & _ & NDs).
    assert (Es : (false, N.to_nat ((hash key).1 mod N.of_nat size)%N) = (true, N.to_nat ((hash key).2 mod N.of_nat size)%N)).
    { apply (nodup_slot (cb_alloc b) _ _ s0 s1 NDs); [done|done|]. lia. }
    done.
Qed.
