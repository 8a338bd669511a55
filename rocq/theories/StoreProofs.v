(** Proofs about the Tethys store builder. *)
From stdpp Require Import prelude gmap.
From Coq Require Import ZArith NArith Lia.
From Verif Require Import Base GraphModel GraphSpec GraphProofs GraphFlow AllocModel AllocSpec
  AllocProofs AllocFlow EncModel EncSpec EncProofs EncStash StoreModel StoreSpec.
Local Open Scope nat_scope.

(** * Positions *)
Lemma positions_ok n h : 2 <= n ->
  exists i j, positions n h = Ok (i, j) /\ i < n / 2 /\ n / 2 <= j < n.
Proof.
  intros Hn. unfold positions.
  assert (1 <= n / 2) by (apply Nat.div_le_lower_bound; lia).
  assert (n / 2 < n) by (apply Nat.div_lt; lia).
  rewrite !bool_decide_false by lia. eexists _, _. split; [done|].
  assert (h.1 mod N.of_nat (n / 2) < N.of_nat (n / 2))%N by (apply N.mod_lt; lia).
  assert (h.2 mod N.of_nat (n - n / 2) < N.of_nat (n - n / 2))%N by (apply N.mod_lt; lia).
  revert H1 H2. generalize (h.1 mod N.of_nat (n / 2))%N (h.2 mod N.of_nat (n - n / 2))%N.
  intros x y. lia.
Qed.

(** * Insertions *)
(** The list [kv] is the item [it] of the allocator. *)
Definition item_of (sp : sparams) (data : list (bytes * list bytes))
  (kv : bytes * list bytes) (it : item) : Prop :=
  data !! it_idx it = Some kv /\
  it_len it = (Z.of_nat (length kv.2) + Z.of_nat (list_control (sp_enc sp)))%Z /\
  positions (sp_n sp) (sp_hash sp kv.1) = Ok (it_h0 it, it_h1 it).

Definition cap (sp : sparams) : Z := Z.of_nat (bucket_size (sp_enc sp)).

Record sinv (sp : sparams) (kvs : list (bytes * list bytes)) (b : sbuilder) (its : list item)
  : Prop := SInv {
  si_built : sb_built b = false;
  si_data : sb_data b = kvs;
  si_alloc : astate (sp_n sp) (cap sp) its (sb_alloc b);
  si_items : Forall2 (item_of sp kvs) (accepted (sp_enc sp) kvs) its;
  si_ok : Forall (item_ok (sp_n sp) (cap sp)) its
}.

Lemma accepted_snoc p kvs kv :
  accepted p (kvs ++ [kv]) = accepted p kvs ++ (if decide (admissible p kv) then [kv] else []).
Proof. unfold accepted. rewrite filter_app. f_equal. Qed.

Lemma item_of_mono sp kvs kv l1 its :
  Forall2 (item_of sp kvs) l1 its -> Forall2 (item_of sp (kvs ++ [kv])) l1 its.
Proof.
  intros H. eapply Forall2_impl; [done|]. intros x it (H1 & H2 & H3). split_and!; auto.
  by apply lookup_app_l_Some.
Qed.

Lemma store_insert_inv sp kvs b its key vals :
  2 <= sp_n sp -> sinv sp kvs b its ->
  exists its', sinv sp (kvs ++ [(key, vals)]) (store_insert sp b key vals).1 its' /\
    (store_insert sp b key vals).2 =
      if decide (admissible (sp_enc sp) (key, vals)) then Ok tt else Throw InvalidArgument.
Proof.
  intros Hn [Hb Hd Ha Hi Hk]. unfold store_insert. rewrite Hb.
  destruct (positions_ok (sp_n sp) (sp_hash sp key) Hn) as (h0 & h1 & Hp & H0 & H1).
  rewrite Hp. cbn [rbind fst snd]. rewrite Hd, app_length. simpl length.
  replace (length kvs + 1 - 1) with (length kvs) by lia.
  assert (sp_n sp / 2 < sp_n sp) by (apply Nat.div_lt; lia).
  destruct (decide (admissible (sp_enc sp) (key, vals))) as [Hadm|Hadm].
  - set (it := Item h0 h1 (Z.of_nat (length vals) + Z.of_nat (list_control (sp_enc sp)))
                 (length kvs)).
    assert (Hit : item_ok (sp_n sp) (cap sp) it).
    { unfold item_ok, cap, it, admissible in *. simpl in *. lia. }
    destruct (alloc_insert_ok _ _ its _ it Ha Hit) as (a' & E & A').
    simpl in E. rewrite E. exists (its ++ [it]). split; [|done]. simpl. split; simpl; auto.
    + rewrite accepted_snoc, decide_True by done. apply Forall2_app; [by apply item_of_mono|].
      constructor; [|constructor]. split_and!; auto. simpl. by rewrite list_lookup_middle.
    + apply Forall_app. auto.
  - exists its. assert (E : alloc_insert (sb_alloc b) h0 h1
      (Z.of_nat (length vals) + Z.of_nat (list_control (sp_enc sp))) (Some (length kvs)) =
      Throw InvalidArgument).
    { unfold alloc_insert. rewrite (as_done _ _ _ _ Ha), (as_page _ _ _ _ Ha).
      rewrite bool_decide_true; [done|]. unfold cap, admissible in *. simpl in *. lia. }
    rewrite E. split; [|done]. simpl. split; simpl; auto.
    rewrite accepted_snoc, decide_False by done. rewrite app_nil_r. by apply item_of_mono.
Qed.

Lemma run_inserts_inv sp : 2 <= sp_n sp -> forall kvs pre b its,
  sinv sp pre b its ->
  exists its', sinv sp (pre ++ kvs) (run_inserts sp b kvs).1 its' /\
    (run_inserts sp b kvs).2 =
      (fun kv => if decide (admissible (sp_enc sp) kv) then Ok tt else Throw InvalidArgument) <$> kvs.
Proof.
  intros Hn. induction kvs as [|[k v] kvs IH]; intros pre b its Hs; csimpl.
  - exists its. by rewrite app_nil_r.
  - destruct (store_insert_inv sp pre b its k v Hn Hs) as (its1 & Hs1 & E1).
    destruct (IH _ _ _ Hs1) as (its2 & Hs2 & E2). exists its2.
    rewrite <- app_assoc in Hs2. simpl in Hs2. split; [done|]. by rewrite E1, E2.
Qed.

Lemma new_builder_inv sp b : new_store_builder sp = Ok b -> sinv sp [] b [].
Proof.
  unfold new_store_builder. intros H. apply rbind_ok in H as (a & Ha & H). simplify_eq.
  apply new_allocator_ok in Ha as [_ Ha]. split; simpl; auto. constructor.
Qed.

Lemma new_builder_ok sp : 2 <= sp_n sp -> exists b, new_store_builder sp = Ok b.
Proof.
  intros Hn. unfold new_store_builder, new_allocator, new_graph.
  destruct (sp_n sp); [lia|]. simpl. eauto.
Qed.

(** * The parts in a page *)
Definition mk (o : orientation) (kv : bytes * list bytes) (e : edge) : part :=
  Part kv.1 kv.2 (ainfo_of e o).

Fixpoint sel (o : orientation) (P : edge -> bool) (acc : list (bytes * list bytes)) (L : list edge)
  : list part :=
  match acc, L with
  | kv :: acc', e :: L' => if P e then mk o kv e :: sel o P acc' L' else sel o P acc' L'
  | _, _ => []
  end.

Lemma elem_of_sel o P acc L q :
  q ∈ sel o P acc L <->
  exists i kv e, acc !! i = Some kv /\ L !! i = Some e /\ P e = true /\ q = mk o kv e.
Proof.
  revert L. induction acc as [|kv acc IH]; intros [|e L]; simpl.
  1-3: split; [by intros ?%elem_of_nil|by intros (?&?&?&?&?&?)].
  assert (T : q ∈ sel o P acc L <-> exists i kv0 e0, (kv :: acc) !! S i = Some kv0 /\
     (e :: L) !! S i = Some e0 /\ P e0 = true /\ q = mk o kv0 e0) by (apply IH).
  destruct (P e) eqn:HP.
  - rewrite elem_of_cons, T. split.
    + intros [->|(i & kv0 & e0 & H)]; [exists 0, kv, e; done|]. by exists (S i), kv0, e0.
    + intros ([|i] & kv0 & e0 & H1 & H2 & H3 & H4); simplify_eq/=; [by left|].
      right. by exists i, kv0, e0.
  - rewrite T. split.
    + intros (i & kv0 & e0 & H). by exists (S i), kv0, e0.
    + intros ([|i] & kv0 & e0 & H1 & H2 & H3 & H4); simplify_eq/=; [congruence|]. by exists i, kv0, e0.
Qed.

Lemma sel_keys o P acc L k : k ∈ pt_key <$> sel o P acc L -> k ∈ acc.*1.
Proof.
  rewrite !elem_of_list_fmap. intros (q & -> & Hq). apply elem_of_sel in Hq as (i & kv & e & H & _ & _ & ->).
  exists kv. split; [done|]. by eapply elem_of_list_lookup_2.
Qed.

Lemma sel_nodup o P acc L : NoDup acc.*1 -> NoDup (pt_key <$> sel o P acc L).
Proof.
  revert L. induction acc as [|kv acc IH]; intros [|e L]; csimpl; try constructor.
  intros H. apply NoDup_cons in H as [Hn H]. destruct (P e); csimpl; [|auto].
  constructor; [|auto]. intros Hk. apply Hn. eauto using sel_keys.
Qed.

(** The edges of the graph that are lists carry the index of their data. *)
Definition edge_data (data : list (bytes * list bytes)) (kv : bytes * list bytes) (e : edge) : Prop :=
  exists i, e_val e = Some i /\ data !! i = Some kv.

Lemma encode_parts_app p buf w q1 q2 :
  encode_parts p buf w (q1 ++ q2) =
  (r <~ encode_parts p buf w q1; encode_parts p r.1 r.2 q2).
Proof.
  revert buf w. induction q1 as [|q q1 IH]; intros buf w; simpl; [done|].
  destruct (encode _ _ _ _ _ _); simpl; auto.
Qed.

Lemma encode_parts_mono p buf w qs r : encode_parts p buf w qs = Ok r -> w <= r.2.
Proof.
  revert buf w. induction qs as [|q qs IH]; intros buf w H; simpl in H; [by simplify_eq|].
  apply rbind_ok in H as (x & _ & H). apply IH in H. lia.
Qed.

Lemma encode_edges_skip p data o P X : forall pre buf w,
  Forall (fun e => is_list e = false) X ->
  encode_edges p data (pre ++ X) o (idxs P (length pre) X) buf w = Ok (buf, w).
Proof.
  induction X as [|e X IH]; intros pre buf w HX; simpl; [done|].
  apply Forall_cons in HX as [He HX].
  assert (T : encode_edges p data (pre ++ e :: X) o (idxs P (S (length pre)) X) buf w = Ok (buf, w)).
  { specialize (IH (pre ++ [e]) buf w HX). rewrite <- app_assoc in IH. simpl in IH.
    rewrite app_length in IH. simpl in IH. by rewrite Nat.add_1_r in IH. }
  destruct (P e); [|done]. simpl. unfold vat. rewrite list_lookup_middle by done. simpl.
  unfold is_list in He. destruct (e_val e); [done|]. done.
Qed.

Lemma encode_edges_ok p data o P L : forall pre X acc buf w r,
  Forall (fun e => is_list e = false) X -> Forall2 (edge_data data) acc L ->
  encode_parts p buf w (sel o P acc L) = Ok r -> r.2 <= kp_page p ->
  encode_edges p data (pre ++ L ++ X) o (idxs P (length pre) (L ++ X)) buf w = Ok r.
Proof.
  induction L as [|e L IH]; intros pre X acc buf w r HX HL HE Hr.
  - apply Forall2_nil_inv_r in HL as ->. simpl in *. simplify_eq. by apply encode_edges_skip.
  - apply Forall2_cons_inv_r in HL as (kv & acc' & He & HL & ->). simpl in *.
    assert (T : forall buf' w', encode_parts p buf' w' (sel o P acc' L) = Ok r ->
       encode_edges p data (pre ++ e :: L ++ X) o (idxs P (S (length pre)) (L ++ X)) buf' w' = Ok r).
    { intros buf' w' HE'. specialize (IH (pre ++ [e]) X acc' buf' w' r HX HL HE' Hr).
      rewrite <- app_assoc in IH. simpl in IH.
      rewrite app_length in IH. simpl in IH. by rewrite Nat.add_1_r in IH. }
    destruct (P e) eqn:HP; [|auto]. cbn [encode_edges ep_idx].
    unfold vat at 1. rewrite list_lookup_middle by done. cbn [rbind].
    destruct He as (i & Hi & Hd). rewrite Hi. unfold vat. rewrite Hd. cbn [rbind].
    simpl in HE. apply rbind_ok in HE as (x & Hx & HE). rewrite Hx. cbn [rbind].
    rewrite bool_decide_false by (apply encode_parts_mono in HE; lia). auto.
Qed.

Definition page_parts (acc : list (bytes * list bytes)) (L : list edge) (v : nat) : list part :=
  sel Incoming (ends (VInner v)) acc L ++ sel Outgoing (starts (VInner v)) acc L.

Definition plain_page (p : eparams) (acc : list (bytes * list bytes)) (L : list edge) (v : nat) : bytes :=
  let b := parts_bytes p (page_parts acc L v) in
  b ++ replicate (kp_page p - length b) 0%N.

(** The page as stored. *)
Definition stored_page (sp : sparams) (acc : list (bytes * list bytes)) (L : list edge) (v : nat) : bytes :=
  match sp_cipher sp with
  | Plain => plain_page (sp_enc sp) acc L v
  | Encrypted ks k =>
      xor_bytes (ks k (nonce_of v) (kp_page (sp_enc sp))) (plain_page (sp_enc sp) acc L v)
  end.
Definition page_nonces (sp : sparams) (v : nat) : list bytes :=
  match sp_cipher sp with Plain => [] | Encrypted _ _ => [nonce_of v] end.

Lemma build_page_ok sp data acc L X v x :
  aligned (sp_enc sp) -> Forall (fun e => is_list e = false) X ->
  Forall2 (edge_data data) acc L ->
  adj_ok (L ++ X) (VInner v) x ->
  Forall (part_ok (sp_enc sp)) (page_parts acc L v) ->
  length (parts_bytes (sp_enc sp) (page_parts acc L v)) <= kp_page (sp_enc sp) ->
  build_page sp data (L ++ X) v x = Ok (stored_page sp acc L v, page_nonces sp v).
Proof.
  intros Hal HX HL [Hin Hout] Hok Hlen. set (p := sp_enc sp) in *.
  pose proof (encode_parts_ok p (page_parts acc L v) [] (replicate (kp_page p) 255%N) Hal Hok) as E.
  rewrite replicate_length in E. specialize (E Hlen). simpl in E.
  unfold page_parts in E at 1. rewrite encode_parts_app in E.
  apply rbind_ok in E as ((b1 & w1) & E1 & E2). cbn [fst snd] in E2.
  pose proof (encode_parts_mono _ _ _ _ _ E2) as Hm. simpl in Hm.
  unfold build_page. fold p. rewrite Hin, Hout.
  pose proof (encode_edges_ok p data Incoming (ends (VInner v)) L [] X acc _ _ _ HX HL E1) as G1.
  simpl in G1. rewrite G1 by lia. cbn [rbind fst snd].
  pose proof (encode_edges_ok p data Outgoing (starts (VInner v)) L [] X acc _ _ _ HX HL E2) as G2.
  simpl in G2. rewrite G2 by lia. cbn [rbind fst snd].
  rewrite drop_replicate.
  pose proof (finish_block_ok (parts_bytes p (page_parts acc L v))
    (replicate (kp_page p - length (parts_bytes p (page_parts acc L v))) 255%N)) as F.
  rewrite replicate_length in F.
  unfold finish_with, stored_page, plain_page, page_nonces. fold p.
  destruct (sp_cipher sp) as [|ks k].
  - rewrite F. cbn [rbind fst snd]. rewrite bool_decide_false by lia. done.
  - unfold enc_finish_block. rewrite F. cbn [rbind fst snd]. rewrite bool_decide_false by lia. done.
Qed.

Lemma build_pages_ok sp data acc L X g :
  aligned (sp_enc sp) -> Forall (fun e => is_list e = false) X ->
  Forall2 (edge_data data) acc L -> g_edges g = L ++ X ->
  (forall i x, g_verts g !! i = Some x -> adj_ok (L ++ X) (VInner i) x) ->
  (forall v, v < length (g_verts g) -> Forall (part_ok (sp_enc sp)) (page_parts acc L v) /\
     length (parts_bytes (sp_enc sp) (page_parts acc L v)) <= kp_page (sp_enc sp)) ->
  forall m i table used,
    length table = i -> i + m = length (g_verts g) ->
    build_pages sp data g (seq i m) table used =
    Ok (table ++ (stored_page sp acc L <$> seq i m), used ++ mjoin (page_nonces sp <$> seq i m)).
Proof.
  intros Hal HX HL HE HV HP. induction m as [|m IH]; intros i table used Hi Hm; csimpl.
  { by rewrite !app_nil_r. }
  destruct (lookup_lt_is_Some_2 (g_verts g) i) as [x Hx]; [lia|].
  unfold vat. rewrite Hx. cbn [rbind]. rewrite HE.
  destruct (HP i) as [H1 H2]; [lia|].
  rewrite (build_page_ok sp data acc L X i x Hal HX HL (HV i x Hx) H1 H2). cbn [rbind fst snd].
  rewrite bool_decide_true by done.
  rewrite IH by (rewrite ?app_length; simpl; lia). by rewrite <- !app_assoc.
Qed.

(** * Capacity *)
Lemma granted_app q1 q2 : granted (q1 ++ q2) = (granted q1 + granted q2)%Z.
Proof. unfold granted. induction q1 as [|q q1 IH]; simpl; lia. Qed.

Lemma granted_page sp data acc L its v :
  Forall2 (item_of sp data) acc its -> Forall2 (fun it e => same_ends (item_edge it) e) its L ->
  granted (page_parts acc L v) = bin_load its (parts_of L) v.
Proof.
  unfold page_parts. rewrite granted_app. intros HA. revert L.
  induction HA as [|kv it acc its Hkv HA IH]; intros L HL.
  - apply Forall2_nil_inv_l in HL as ->. done.
  - apply Forall2_cons_inv_l in HL as (e & L' & He & HL & ->). specialize (IH L' HL).
    unfold bin_load in *. csimpl. rewrite <- IH. clear IH.
    destruct He as (E1 & E2 & E3 & E4). simpl in *. unfold starts, ends. rewrite <- E1, <- E2.
    unfold granted.
    assert (D1 : bool_decide (VInner (it_h1 it) = VInner v) = bool_decide (it_h1 it = v)).
    { apply bool_decide_ext. split; [by intros [= ->]|by intros ->]. }
    assert (D0 : bool_decide (VInner (it_h0 it) = VInner v) = bool_decide (it_h0 it = v)).
    { apply bool_decide_ext. split; [by intros [= ->]|by intros ->]. }
    rewrite D0, D1. destruct (bool_decide (it_h1 it = v)), (bool_decide (it_h0 it = v)); simpl; lia.
Qed.
