(** Proofs about the Pluto scheme. *)
From stdpp Require Import prelude gmap.
From Coq Require Import ZArith NArith Lia.
From Verif Require Import Base EncModel EncSpec EncProofs VecModel CuckooModel.
From Verif Require CuckooSpec CuckooProofs Props_Cuckoo.
From Verif Require Import StoreModel StoreSpec StoreProofs
  StoreTheorems KvModel SchemeModel SchemeSpec SchemeProofs PlutoModel PlutoSpec.
Local Open Scope nat_scope.
Local Arguments N.of_nat : simpl never.
Local Arguments N.modulo : simpl never.
Local Arguments N.mul : simpl never.

(** * Cutting lists *)
Lemma blocks_short L ids : length ids < L -> blocks L ids = [] /\ rest L ids = ids.
Proof. intros H. unfold blocks, rest. by rewrite Nat.div_small. Qed.

Lemma div_cons (L n : nat) : 0 < L -> (L + n) / L = S (n / L).
Proof. intros H. replace (L + n) with (1 * L + n) by lia. by rewrite Nat.div_add_l by lia. Qed.

Lemma blocks_cons L b ids : 0 < L -> length b = L ->
  blocks L (b ++ ids) = b :: blocks L ids /\ rest L (b ++ ids) = rest L ids.
Proof.
  intros HL Hb. unfold blocks, rest. rewrite app_length, Hb, div_cons by done. split.
  - cbn [seq]. rewrite fmap_cons. f_equal; [by rewrite Nat.mul_0_l, drop_0, take_app_alt|].
    rewrite <- fmap_S_seq, <- list_fmap_compose. apply list_fmap_ext. intros _ i _. unfold compose.
    f_equal. cbn [Nat.mul]. by apply drop_add_app.
  - cbn [Nat.mul]. by apply drop_add_app.
Qed.

Lemma blocks_length L ids : length (blocks L ids) = length ids / L.
Proof. unfold blocks. by rewrite fmap_length, seq_length. Qed.

Lemma blocks_ind (P : list N -> Prop) L : 0 < L ->
  (forall ids, length ids < L -> P ids) ->
  (forall b ids, length b = L -> P ids -> P (b ++ ids)) -> forall ids, P ids.
Proof.
  intros HL H1 H2 ids. remember (length ids) as n eqn:E. revert ids E.
  induction (lt_wf n) as [n _ IH]. intros ids ->.
  destruct (decide (length ids < L)) as [H|H]; [by apply H1|].
  rewrite <- (take_drop L ids). apply H2; [rewrite take_length; lia|].
  eapply IH; [|done]. rewrite drop_length. lia.
Qed.

Lemma blocks_all L ids : 0 < L -> Forall (fun b => length b = L) (blocks L ids) /\
  mjoin (blocks L ids) ++ rest L ids = ids.
Proof.
  intros HL. revert ids. apply (blocks_ind _ L HL); [intros ids H|intros b ids Hb IH].
  - destruct (blocks_short L ids H) as [-> ->]. done.
  - destruct (blocks_cons L b ids HL Hb) as [-> ->]. destruct IH as [IH1 IH2]. split; [by constructor|].
    csimpl. rewrite <- app_assoc. by rewrite IH2.
Qed.

Lemma rest_short L ids : 0 < L -> length (rest L ids) < L.
Proof.
  intros HL. unfold rest. rewrite drop_length.
  pose proof (Nat.div_mod (length ids) L ltac:(lia)).
  pose proof (Nat.mod_upper_bound (length ids) L ltac:(lia)). lia.
Qed.

(** * Hash tables *)
Fixpoint ht_inserts (h : ht_builder) (kvs : list (bytes * bytes)) : ht_builder * list (res unit) :=
  match kvs with
  | [] => (h, [])
  | (k, v) :: kvs' =>
      let r := ht_insert h k v in
      let r' := ht_inserts r.1 kvs' in
      (r'.1, r.2 :: r'.2)
  end.

Lemma ht_inserts_app h k1 k2 :
  ht_inserts h (k1 ++ k2) =
  ((ht_inserts (ht_inserts h k1).1 k2).1,
   (ht_inserts h k1).2 ++ (ht_inserts (ht_inserts h k1).1 k2).2).
Proof.
  revert h. induction k1 as [|[k v] k1 IH]; intros h; simpl.
  - by destruct (ht_inserts h k2).
  - rewrite IH. simpl. done.
Qed.

Lemma ht_inserts_cuckoo kvs : forall b,
  ht_inserts (BCuckoo b) kvs =
    (BCuckoo (CuckooSpec.cb_inserts oceanus_hash b kvs).1, (CuckooSpec.cb_inserts oceanus_hash b kvs).2).
Proof.
  induction kvs as [|[k v] kvs IH]; intros b; simpl; [done|]. by rewrite IH.
Qed.

Lemma ht_inserts_rocks kvs : forall m,
  exists m', ht_inserts (BRocks m) kvs = (BRocks m', replicate (length kvs) (Ok tt)) /\
    (NoDup kvs.*1 -> (forall k, k ∈ kvs.*1 -> m !! k = None) ->
     (forall i k v, kvs !! i = Some (k, v) -> m' !! k = Some v) /\
     (forall k, k ∉ kvs.*1 -> m' !! k = m !! k) /\ size m' = size m + length kvs).
Proof.
  induction kvs as [|[k v] kvs IH]; intros m; csimpl.
  - exists m. split; [done|]. intros _ _. split_and!; [done|done|lia].
  - destruct (IH (<[k:=v]> m)) as (m' & E & HI). exists m'. rewrite E. split; [done|].
    intros ND Hm. apply NoDup_cons in ND as [Hk ND].
    destruct (HI ND) as (G1 & G2 & G3).
    { intros k' Hk'. rewrite lookup_insert_ne by (intros ->; done). apply Hm. by right. }
    split_and!.
    + intros [|i] k' v' Hi; simpl in Hi; simplify_eq; [|eauto]. rewrite G2 by done. by rewrite lookup_insert.
    + intros k' Hk'. apply not_elem_of_cons in Hk' as [? ?]. rewrite G2 by done. by rewrite lookup_insert_ne.
    + rewrite G3, map_size_insert_None by (apply Hm; left). lia.
Qed.

Lemma key_le_control p : key_entries p <= list_control p.
Proof. unfold list_control, ctl_half. lia. Qed.

Section lens.
  Context (pp : pparams) (Hw : words (pp_enc pp)) (HM : 0 < max_list_size (pp_enc pp)).

  Lemma p_len_max : p_len pp = max_list_size (pp_enc pp).
  Proof.
    unfold p_len. destruct (pp_ht pp); [|done]. case_bool_decide as H; [|done].
    exfalso. unfold cuckoo_list_length, max_list_size in *. pose proof (key_le_control (pp_enc pp)). lia.
  Qed.
  Lemma p_len_vlen : p_len pp <= p_vlen pp.
  Proof.
    rewrite p_len_max. unfold p_vlen. destruct (pp_ht pp); [|done].
    unfold cuckoo_list_length, max_list_size in *. pose proof (key_le_control (pp_enc pp)). lia.
  Qed.
  Lemma page_split size depth max_n : pp_ht pp = KCuckoo size depth max_n ->
    kp_page (pp_enc pp) = kp_key (pp_enc pp) + 8 * p_vlen pp.
  Proof.
    intros E. unfold p_vlen. rewrite E. destruct Hw as (W1 & W2 & W3 & _).
    unfold cuckoo_list_length, max_list_size, list_control, ctl_half, bucket_size, key_entries in *.
    rewrite W1 in *. rewrite W2 in *. rewrite decide_True in * by done.
    pose proof (Nat.div_mod (kp_page (pp_enc pp)) 8 ltac:(lia)).
    pose proof (Nat.div_mod (kp_key (pp_enc pp)) 8 ltac:(lia)). lia.
  Qed.
End lens.

Section vals.
  Context (pp : pparams).
  Lemma ht_value_length b : length b <= p_vlen pp -> length (ht_value pp b) = 8 * p_vlen pp.
  Proof.
    intros H. unfold ht_value. rewrite app_length, replicate_length.
    assert (E : length (mjoin (le64 <$> b)) = 8 * length b); [|lia].
    induction b as [|x b IH]; csimpl; [done|]. simpl in H. rewrite app_length, IH, le64_length by lia. lia.
  Qed.
  Lemma chunks_zeros n : le_val <$> chunks 8 n (replicate (8 * n) 0%N) = replicate n 0%N.
  Proof.
    induction n as [|n IH]; [done|]. cbn [chunks]. rewrite fmap_cons.
    replace (8 * S n) with (8 + 8 * n) by lia. rewrite replicate_add.
    rewrite take_app_alt, drop_app_alt by done. by rewrite IH.
  Qed.
  Lemma ht_ids_value b : length b <= p_vlen pp -> Forall (fun id => (id < 2 ^ 64)%N) b ->
    ht_ids pp (ht_value pp b) = b ++ replicate (p_vlen pp - length b) 0%N.
  Proof.
    unfold ht_ids, ht_value. generalize (p_vlen pp). induction b as [|x b IH]; intros n H HF.
    - csimpl. rewrite Nat.sub_0_r. apply chunks_zeros.
    - apply Forall_cons in HF as [Hx HF]. simpl in H. destruct n as [|n]; [lia|].
      csimpl. rewrite <- app_assoc, take_app_alt, drop_app_alt by (by rewrite le64_length).
      rewrite le64_val by done. f_equal. apply IH; [lia|done].
  Qed.
End vals.

Section ht.
  Context (pp : pparams) (Hw : words (pp_enc pp)) (HM : 0 < max_list_size (pp_enc pp))
    (Hks : 0 < kp_key (pp_enc pp)).

  (** What is asked of the pairs given to the hash table. *)
  Definition pairs_ok (kvs : list (bytes * bytes)) : Prop :=
    CuckooSpec.kv_ok (kp_key (pp_enc pp)) (8 * p_vlen pp) kvs /\ NoDup kvs.*1 /\
    forall size depth max_n, pp_ht pp = KCuckoo size depth max_n ->
      0 < size /\ (N.of_nat (length kvs) <= no_index)%N /\
      CuckooSpec.ff_key (kp_key (pp_enc pp)) ∉ kvs.*1.

  Lemma ht_spec kvs : pairs_ok kvs ->
    exists h h' f t,
      ht_inserts (ht_new pp) kvs = (h, replicate (length kvs) (Ok tt)) /\
      ht_commit pp h = (h', Ok f) /\ ht_spilled h' = ht_spilled h /\
      stored_blocks h' + length (ht_spilled h') = length kvs /\
      Forall (fun i => (i < N.of_nat (length kvs))%N) (ht_spilled h') /\
      ht_open pp f = Ok t /\
      (forall i k v, kvs !! i = Some (k, v) ->
         ht_get pp t k = if decide (N.of_nat i ∈ ht_spilled h') then Throw OutOfRange else Ok v) /\
      (forall k, length k = kp_key (pp_enc pp) -> k ∉ kvs.*1 ->
         (forall size depth max_n, pp_ht pp = KCuckoo size depth max_n ->
            k <> CuckooSpec.ff_key (kp_key (pp_enc pp))) ->
         ht_get pp t k = Throw OutOfRange).
  Proof.
    intros (HK & ND & HC). unfold ht_new. destruct (pp_ht pp) as [sz depth max_n|] eqn:Ek.
    - destruct (HC _ _ _ eq_refl) as (Hs & HN & Hff).
      pose proof (page_split pp Hw HM _ _ _ Ek) as Ep.
      destruct (Props_Cuckoo.C21_distinct (kp_key (pp_enc pp)) (8 * p_vlen pp) sz depth max_n oceanus_hash
        kvs Hks Hs HK HN ND) as (b & outs & file & t & E1 & E2 & E3 & G1 & G2 & G3).
      destruct (CuckooProofs.brep_inserts (kp_key (pp_enc pp)) (8 * p_vlen pp) sz oceanus_hash kvs ltac:(lia) Hs
        [] _ HK HN (CuckooProofs.brep_new (kp_key (pp_enc pp) + 8 * p_vlen pp) sz depth max_n oceanus_hash ltac:(lia))) as [_ R].
      rewrite app_nil_l in R. rewrite <- Ep in *. unfold CuckooSpec.cb_build in E1.
      rewrite ht_inserts_cuckoo.
      destruct (CuckooSpec.cb_inserts oceanus_hash _ kvs) as [b1 outs1] eqn:EI. cbn [fst snd] in *.
      destruct (cb_commit (kp_page (pp_enc pp)) b1 []) as [[b2 file2] o2] eqn:EC. cbn [fst snd] in *.
      injection E1 as -> -> -> ->.
      assert (Hb2 : cb_alloc b2 = cb_alloc b /\ cb_spilled b2 = cb_spilled b).
      { unfold cb_commit in EC. rewrite (CuckooProofs.br_open _ _ _ _ _ R) in EC.
        destruct (cb_write _ _ (ca_t0 (cb_alloc b)) _) as [o1 [| | |]]; by simplify_eq. }
      destruct Hb2 as [Hb2a Hb2b].
      destruct (CuckooProofs.br_perm _ _ _ _ _ R) as (spl & S1 & S2 & S3).
      exists (BCuckoo b), (BCuckoo b2), (FCuckoo file), (TCuckoo t). cbn [ht_commit ht_open ht_spilled stored_blocks].
      rewrite EC. cbn [fst snd rbind]. rewrite E3. cbn [rbind ht_get]. rewrite Hb2a, Hb2b.
      assert (Ho : outs = replicate (length kvs) (Ok tt)).
      { assert (HL : length outs = length kvs).
        { assert (Hlen : forall kvs b, length (CuckooSpec.cb_inserts oceanus_hash b kvs).2 = length kvs).
          { clear. induction kvs as [|[k v] kvs IH]; intros b; simpl; [done|]. by rewrite IH. }
          specialize (Hlen kvs (cb_new (kp_page (pp_enc pp)) sz depth max_n [])).
          by rewrite EI in Hlen. }
        rewrite <- HL. clear -E2. induction E2 as [|o outs H E2 IH]; [done|]. simpl. by rewrite H, <- IH. }
      split_and!; auto.
      + by rewrite Ho.
      + rewrite S1, fmap_length. apply Permutation_length in S3.
        rewrite imap_length, app_length in S3. unfold stored_blocks. simpl. lia.
      + rewrite S1. apply Forall_fmap, Forall_forall. intros c Hc. simpl.
        assert (Hc' : c ∈ imap (CuckooProofs.slot_of oceanus_hash) kvs).
        { rewrite S3. apply elem_of_app. by left. }
        apply elem_of_list_lookup in Hc' as [i Hi]. rewrite list_lookup_imap in Hi.
        destruct (kvs !! i) as [kv|] eqn:Hkv; simplify_eq/=. apply lookup_lt_Some in Hkv. lia.
      + intros i k v Hi. case_decide as Hsp; [|by eapply G1].
        eapply G2; [done|done|]. intros ->. apply Hff. apply elem_of_list_fmap.
        exists (CuckooSpec.ff_key (kp_key (pp_enc pp)), v). split; [done|]. by eapply elem_of_list_lookup_2.
      + intros k Hk Hn Hf. apply G3; auto. by eapply Hf.
    - destruct (ht_inserts_rocks kvs ∅) as (m & E & HI). destruct (HI ND) as (G1 & G2 & G3); [intros; apply lookup_empty|].
      exists (BRocks m), (BRocks m), (FRocks m), (TRocks m). cbn [ht_commit ht_open ht_spilled stored_blocks ht_get].
      rewrite map_size_empty in G3. split_and!; auto.
      + unfold stored_blocks. simpl. lia.
      + intros i k v Hi. rewrite (G1 _ _ _ Hi), decide_False by apply not_elem_of_nil.
        pose proof (Forall_lookup_1 _ _ _ _ HK Hi) as [_ Lv]. simpl in Lv.
        rewrite bool_decide_eq_false_2 by lia. by rewrite take_ge by lia.
      + intros k Hk Hn _. rewrite G2 by done. by rewrite lookup_empty.
  Qed.
End ht.

(** * Builder *)
Section builder.
  Context (pp : pparams) (HL : 0 < p_len pp).
  Let sc := pp_sc pp.
  Let L := p_len pp.

  (** The pairs a keyword gives to the hash table and to the store. *)
  Definition ht_pairs_from (token : bytes) (bc : nat) (bs : list (list N)) : list (bytes * bytes) :=
    imap (fun i b => (derive_core_key sc token (bc + i), ht_value pp b)) bs.
  Definition ht_pairs (x : bytes * list N) : list (bytes * bytes) :=
    ht_pairs_from (sc_prf sc x.1) 1 (blocks L x.2).
  Definition st_pairs (x : bytes * list N) : list (bytes * list bytes) :=
    match rest L x.2 with
    | [] => []
    | r => [(derive_core_key sc (sc_prf sc x.1) 0, le64 <$> r)]
    end.

  Lemma ht_pairs_cons token bc b bs :
    ht_pairs_from token bc (b :: bs) =
      (derive_core_key sc token bc, ht_value pp b) :: ht_pairs_from token (S bc) bs.
  Proof.
    unfold ht_pairs_from. rewrite imap_cons. rewrite Nat.add_0_r. f_equal. apply imap_ext.
    intros i y _. simpl. f_equal. f_equal. apply Nat.add_succ_r.
  Qed.

  Lemma p_blocks_ok token ids : forall b bc block, length block < L ->
    let bs := blocks L (block ++ ids) in
    let r := ht_inserts (pb_ht b) (ht_pairs_from token bc bs) in
    Forall (fun o => o = Ok tt) r.2 ->
    p_blocks pp token b bc block ids =
      (PB (pb_store b) r.1 (pb_complete b + N.of_nat (length bs)), Ok (bc + length bs, rest L (block ++ ids))).
  Proof.
    induction ids as [|id ids IH]; intros b bc block Hb; cbn zeta.
    - rewrite app_nil_r. destruct (blocks_short L block Hb) as [-> ->]. intros _. simpl.
      rewrite N.add_0_r, Nat.add_0_r. by destruct b.
    - intros HF. cbn [p_blocks]. case_bool_decide as E.
      + fold L in E. change (block ++ id :: ids) with (block ++ [id] ++ ids) in HF |- *.
        rewrite (app_assoc block [id] ids) in HF |- *.
        destruct (blocks_cons L (block ++ [id]) ids HL E) as [E1 E2]. rewrite E1 in HF |- *. rewrite E2.
        rewrite ht_pairs_cons in HF |- *. cbn [ht_inserts] in HF |- *. cbn [fst snd] in HF |- *.
        apply Forall_cons in HF as [H1 HF]. fold sc. rewrite H1.
        rewrite (IH (PB (pb_store b) _ _) (S bc) []); [|simpl; lia|exact HF].
        cbn [pb_store pb_ht pb_complete app length]. f_equal; [f_equal; lia|]. do 2 f_equal. lia.
      + rewrite (IH b bc (block ++ [id])); rewrite <- ?app_assoc; [done| |exact HF].
        rewrite app_length in *. simpl in *. fold L in E. lia.
  Qed.

  Lemma pluto_insert_ok b x :
    Forall (fun o => o = Ok tt) (ht_inserts (pb_ht b) (ht_pairs x)).2 ->
    Forall (fun o => o = Ok tt) (run_inserts (sc_store sc) (pb_store b) (st_pairs x)).2 ->
    pluto_insert pp b x.1 x.2 =
      (PB (run_inserts (sc_store sc) (pb_store b) (st_pairs x)).1 (ht_inserts (pb_ht b) (ht_pairs x)).1
          (pb_complete b + N.of_nat (length x.2 / L)), Ok tt).
  Proof.
    intros H1 H2. unfold pluto_insert.
    rewrite (p_blocks_ok (sc_prf (pp_sc pp) x.1) x.2 b 1 [] HL); [|exact H1].
    cbn [fst snd app pb_store pb_ht pb_complete]. rewrite blocks_length.
    unfold st_pairs in *. destruct (rest L x.2) as [|y r]; cbn [fst snd].
    - rewrite bool_decide_eq_false_2 by (simpl; lia). done.
    - rewrite bool_decide_eq_true_2 by (simpl; lia). cbn [run_inserts fst snd] in *.
      apply Forall_cons in H2 as [H2 _]. fold sc. by rewrite H2.
  Qed.

  Definition db_ht_pairs (db : database) : list (bytes * bytes) := mjoin (ht_pairs <$> db).
  Definition db_st_pairs (db : database) : list (bytes * list bytes) := mjoin (st_pairs <$> db).

  Lemma pluto_insert_db_ok db : forall b,
    Forall (fun o => o = Ok tt) (ht_inserts (pb_ht b) (db_ht_pairs db)).2 ->
    Forall (fun o => o = Ok tt) (run_inserts (sc_store sc) (pb_store b) (db_st_pairs db)).2 ->
    pluto_insert_db pp b db =
      (PB (run_inserts (sc_store sc) (pb_store b) (db_st_pairs db)).1 (ht_inserts (pb_ht b) (db_ht_pairs db)).1
          (pb_complete b + N.of_nat (n_blocks L db)), replicate (length db) (Ok tt)).
  Proof.
    unfold db_ht_pairs, db_st_pairs, n_blocks. induction db as [|x db IH]; intros b H1 H2; csimpl in *.
    - rewrite N.add_0_r. by destruct b.
    - rewrite ht_inserts_app in *. rewrite run_inserts_app in *. cbn [fst snd] in *.
      apply Forall_app in H1 as [H1 H1']. apply Forall_app in H2 as [H2 H2'].
      rewrite (pluto_insert_ok b x H1 H2). cbn [fst snd pb_store pb_ht pb_complete].
      rewrite (IH (PB _ _ _)) by done. cbn [fst snd pb_store pb_ht pb_complete].
      f_equal. f_equal. lia.
  Qed.

  Lemma fill_ok rand n : forall i h,
    let r := ht_inserts h ((fun j => (rand j, ht_value pp [])) <$> seq i n) in
    Forall (fun o => o = Ok tt) r.2 -> fill_dummies pp rand n i h = (r.1, Ok tt).
  Proof.
    induction n as [|n IH]; intros i h; cbn zeta; [done|]. cbn [seq]. rewrite fmap_cons.
    cbn [ht_inserts fst snd fill_dummies]. intros HF. apply Forall_cons in HF as [H1 HF].
    rewrite H1. by apply IH.
  Qed.
End builder.

(** * Keys *)
Lemma NoDup_mjoin {A B} (f : A -> list B) (l : list A) : NoDup l ->
  NoDup (mjoin (f <$> l)) <->
  (forall x, x ∈ l -> NoDup (f x)) /\
  (forall x y k, x ∈ l -> y ∈ l -> k ∈ f x -> k ∈ f y -> x = y).
Proof.
  induction l as [|a l IH]; intros ND; csimpl.
  - split; [|intros; constructor]. intros _. split; [intros x Hx|intros x y k Hx]; by apply elem_of_nil in Hx.
  - apply NoDup_cons in ND as [Ha ND]. rewrite NoDup_app, (IH ND). clear IH. split.
    + intros (H1 & H2 & H3 & H4). split.
      * intros x [->|Hx]%elem_of_cons; auto.
      * assert (HJ : forall y k, y ∈ l -> k ∈ f y -> k ∈ mjoin (f <$> l)).
        { intros y k Hy Hk. apply elem_of_list_join. exists (f y). split; [done|]. by apply elem_of_list_fmap_1. }
        intros x y k [->|Hx]%elem_of_cons [->|Hy]%elem_of_cons Kx Ky; auto.
        -- destruct (H2 k Kx). eauto.
        -- destruct (H2 k Ky). eauto.
        -- eauto.
    + intros [H1 H2]. split_and!.
      * apply H1. left.
      * intros k Kx (ky & Ky & Hy)%elem_of_list_join. apply elem_of_list_fmap in Hy as (y & -> & Hy).
        apply Ha. by rewrite (H2 a y k ltac:(left) ltac:(by right) Kx Ky).
      * intros x Hx. apply H1. by right.
      * intros x y k Hx Hy. apply H2; by right.
Qed.

Lemma ids_of_in (db : database) x : NoDup db.*1 -> x ∈ db -> ids_of x.1 db = x.2.
Proof.
  intros ND Hx. unfold ids_of. destruct (list_find (fun y => y.1 = x.1) db) as [[i y]|] eqn:F.
  - apply list_find_Some in F as (F1 & F2 & _). apply elem_of_list_lookup in Hx as [j Hj].
    assert (i = j) as ->; [|congruence].
    eapply (NoDup_lookup db.*1 i j x.1); [done|..]; rewrite list_lookup_fmap; [by rewrite F1, <- F2|by rewrite Hj].
  - apply list_find_None in F. rewrite Forall_forall in F. by destruct (F x Hx).
Qed.
Lemma ids_of_not_in (db : database) w : w ∉ db.*1 -> ids_of w db = [].
Proof.
  intros Hw. unfold ids_of. destruct (list_find (fun y => y.1 = w) db) as [[i y]|] eqn:F; [|done].
  apply list_find_Some in F as (F1 & F2 & _). destruct Hw. apply elem_of_list_fmap. exists y.
  split; [done|]. by eapply elem_of_list_lookup_2.
Qed.

(** * The server *)
Lemma surviving_incl lost b bs : forall ks, b ∈ surviving lost ks bs -> b ∈ bs.
Proof.
  induction bs as [|b' bs IH]; intros ks Hb; destruct ks as [|k ks]; simpl in Hb; try by apply elem_of_nil in Hb.
  case_decide; [by apply elem_of_nil in Hb|].
  apply elem_of_cons in Hb as [->|Hb]; [left|right]. by eapply IH.
Qed.

Lemma p_loop_ok pp t token lost bs : forall i fuel,
  length bs < fuel -> (N.of_nat (i + length bs) < 2 ^ 32)%N ->
  (forall j b, bs !! j = Some b -> ht_get pp t (derive_core_key (pp_sc pp) token (i + j)) =
     if decide (derive_core_key (pp_sc pp) token (i + j) ∈ lost) then Throw OutOfRange
     else Ok (ht_value pp b)) ->
  ht_get pp t (derive_core_key (pp_sc pp) token (i + length bs)) = Throw OutOfRange ->
  Forall (fun b => length b <= p_vlen pp /\ Forall (fun id => (id < 2 ^ 64)%N) b) bs ->
  p_loop fuel pp t token (N.of_nat i) =
    Ok (mjoin ((fun b => b ++ replicate (p_vlen pp - length b) 0%N) <$>
         surviving lost (derive_core_key (pp_sc pp) token <$> seq i (length bs)) bs)).
Proof.
  induction bs as [|b bs IH]; intros i fuel Hf Hi Hg Hlast HF; (destruct fuel as [|fuel]; [lia|]); cbn [p_loop].
  - simpl in Hlast. rewrite Nat.add_0_r in Hlast. rewrite Nat2N.id, Hlast. done.
  - rewrite Nat2N.id. pose proof (Hg 0 b eq_refl) as H0. rewrite Nat.add_0_r in H0. rewrite H0.
    cbn [length seq]. rewrite fmap_cons. cbn [surviving].
    apply Forall_cons in HF as [[Hl H64] HF]. simpl in Hf, Hi.
    case_decide as Hd; [done|].
    assert (Hn : incr32 (N.of_nat i) = N.of_nat (S i)).
    { unfold incr32. rewrite N.mod_small; lia. }
    rewrite Hn, (IH (S i) fuel); [|lia|lia| | |done].
    + cbn [rbind]. rewrite ht_ids_value by done. by csimpl.
    + intros j b' Hj. specialize (Hg (S j) b' Hj). by rewrite Nat.add_succ_r in Hg.
    + simpl in Hlast. by rewrite Nat.add_succ_r in Hlast.
Qed.

(** * The scheme *)
Section db.
  Context (pp : pparams) (rand : nat -> bytes) (n_elts : N) (db : database) (ws : list bytes).
  Context (Hok : pluto_ok pp rand n_elts db ws).
  Let sc := pp_sc pp.
  Let sp := sc_store sc.
  Let L := p_len pp.
  Let key w i := derive_core_key sc (sc_prf sc w) i.
  Let dpairs := (fun j => (rand j, ht_value pp [])) <$> seq 0 (n_dummies pp n_elts db).
  Let kvs := db_ht_pairs pp db ++ dpairs.

  Lemma L_pos : 0 < L.
  Proof. unfold L. rewrite p_len_max by apply Hok. apply Hok. Qed.

  Lemma key_in w i : i <= S (length (ids_of w db) / L) -> key w i ∈ search_keys pp db w.
  Proof.
    intros Hi. unfold key. rewrite derive_block_key.
    apply elem_of_list_fmap_1, elem_of_seq. fold L. lia.
  Qed.

  Lemma counter_small w i : i <= S (length (ids_of w db) / L) -> (N.of_nat i < 2 ^ 64)%N.
  Proof.
    intros Hi. assert (N.of_nat (S (S (length (ids_of w db) / L))) < 2 ^ 32)%N as H.
    { destruct (decide (w ∈ db.*1)) as [Hd|Hd].
      - apply elem_of_list_fmap in Hd as (x & -> & Hx).
        rewrite ids_of_in by (done || apply Hok).
        pose proof (po_short _ _ _ _ _ Hok) as HS. rewrite Forall_forall in HS. apply (HS x Hx).
      - rewrite (ids_of_not_in db w Hd). simpl length.
        rewrite Nat.div_0_l by (pose proof L_pos; lia). done. }
    change (2 ^ 64)%N with (2 ^ 32 * 2 ^ 32)%N. lia.
  Qed.

  Lemma key_inj w w' i j : w ∈ ws -> w' ∈ ws ->
    i <= S (length (ids_of w db) / L) -> j <= S (length (ids_of w' db) / L) ->
    key w i = key w' j -> w = w' /\ i = j.
  Proof.
    intros Hw Hw' Hi Hj E. unfold key in E. rewrite !derive_block_key in E.
    assert (HU : forall w i, w ∈ ws -> i <= S (length (ids_of w db) / L) -> (w, i) ∈ search_uses pp db ws).
    { intros v k Hv Hk. apply elem_of_list_bind. exists v. split; [|done].
      apply elem_of_list_fmap_1, elem_of_seq. fold L. lia. }
    assert (E' : (w, i) = (w', j)); [|by injection E'].
    eapply (block_key_inj sc ws (search_uses pp db ws)); simpl; eauto using counter_small.
    apply Hok.
  Qed.

  Lemma key_not_dummy w i : w ∈ ws -> i <= S (length (ids_of w db) / L) ->
    key w i ∉ dummy_keys pp rand n_elts db.
  Proof.
    intros Hw Hi. apply (proj2 (po_dummies _ _ _ _ _ Hok)). apply elem_of_list_join. exists (search_keys pp db w). split; [by apply key_in|].
    by apply elem_of_list_fmap_1.
  Qed.

  Lemma db_word x : x ∈ db -> x.1 ∈ ws /\ ids_of x.1 db = x.2.
  Proof.
    intros Hx. split.
    - apply (proj2 (po_ws _ _ _ _ _ Hok)). by apply elem_of_list_fmap_1.
    - apply ids_of_in; [apply Hok|done].
  Qed.
  Lemma db_fst x y : x ∈ db -> y ∈ db -> x.1 = y.1 -> x = y.
  Proof.
    intros Hx Hy E. pose proof (proj2 (db_word x Hx)) as E1. pose proof (proj2 (db_word y Hy)) as E2.
    rewrite E in E1. destruct x, y; simpl in *. congruence.
  Qed.
  Lemma db_nodup : NoDup db.
  Proof. eapply NoDup_fmap_1, Hok. Qed.

  Lemma ht_pairs_keys x : (ht_pairs pp x).*1 = full_keys pp x.1 x.2.
  Proof.
    unfold ht_pairs, full_keys. rewrite <- blocks_length. generalize (blocks (p_len pp) x.2), 1.
    intros bs. induction bs as [|b bs IH]; intros n; [done|].
    rewrite ht_pairs_cons. cbn [length seq]. rewrite !fmap_cons. cbn [fst].
    by rewrite IH, derive_block_key.
  Qed.
  Lemma kvs_keys : kvs.*1 = table_keys pp rand n_elts db.
  Proof.
    unfold kvs, table_keys. rewrite fmap_app. f_equal.
    - unfold db_ht_pairs. clear. induction db as [|x d IH]; csimpl; [done|].
      by rewrite fmap_app, IH, ht_pairs_keys.
    - unfold dpairs, dummy_keys. by rewrite <- list_fmap_compose.
  Qed.

  Lemma full_key_inv x k : k ∈ full_keys pp x.1 x.2 -> exists i, k = key x.1 i /\ 1 <= i <= length x.2 / L.
  Proof.
    intros Hk. apply elem_of_list_fmap in Hk as (i & -> & Hi). apply elem_of_seq in Hi. fold L in Hi.
    exists i. split; [symmetry; apply derive_block_key|lia].
  Qed.

  Lemma table_key_inv k : k ∈ table_keys pp rand n_elts db ->
    (exists x i, x ∈ db /\ k = key x.1 i /\ 1 <= i <= length x.2 / L) \/ k ∈ dummy_keys pp rand n_elts db.
  Proof.
    intros [Hk|Hk]%elem_of_app; [left|by right].
    apply elem_of_list_join in Hk as (ks & Hk & Hks). apply elem_of_list_fmap in Hks as (x & -> & Hx).
    apply full_key_inv in Hk as (i & -> & Hi). eauto.
  Qed.

  Lemma table_keys_nodup : NoDup (table_keys pp rand n_elts db).
  Proof.
    unfold table_keys. apply NoDup_app. split_and!.
    - apply NoDup_mjoin; [apply db_nodup|]. split.
      + intros x Hx. unfold full_keys. apply NoDup_fmap_2_strong; [|apply NoDup_seq].
        intros i j Hi Hj E. apply elem_of_seq in Hi, Hj. fold L in Hi, Hj. rewrite <- !derive_block_key in E.
        destruct (db_word x Hx) as [Hw Ei].
        by eapply (key_inj x.1 x.1 i j Hw Hw); rewrite ?Ei; try lia.
      + intros x y k Hx Hy Kx Ky. apply full_key_inv in Kx as (i & -> & Hi).
        apply full_key_inv in Ky as (j & E & Hj).
        destruct (db_word x Hx) as [Hw Ei], (db_word y Hy) as [Hw' Ej].
        destruct (key_inj x.1 y.1 i j Hw Hw') as [E1 _]; rewrite ?Ei, ?Ej; try lia; [done|].
        by apply db_fst.
    - intros k Hk. apply elem_of_list_join in Hk as (ks & Hk & Hks).
      apply elem_of_list_fmap in Hks as (x & -> & Hx). apply full_key_inv in Hk as (i & -> & Hi).
      destruct (db_word x Hx) as [Hw Ei]. apply key_not_dummy; [done|]. rewrite Ei. lia.
    - apply Hok.
  Qed.

  Lemma table_key_searched k : k ∈ table_keys pp rand n_elts db ->
    k ∈ mjoin (search_keys pp db <$> ws) ++ dummy_keys pp rand n_elts db.
  Proof.
    intros Hk. apply elem_of_app. apply table_key_inv in Hk as [(x & i & Hx & -> & Hi)|Hk]; [left|by right].
    destruct (db_word x Hx) as [Hw Ei]. apply elem_of_list_join. exists (search_keys pp db x.1).
    split; [apply key_in; rewrite Ei; lia|]. by apply elem_of_list_fmap_1.
  Qed.

  Lemma blocks_fit x : x ∈ db -> Forall (fun b => length b = L /\ Forall (fun id => (id < 2 ^ 64)%N) b) (blocks L x.2).
  Proof.
    intros Hx. destruct (blocks_all L x.2 L_pos) as [H1 H2].
    apply Forall_forall. intros b Hb. rewrite Forall_forall in H1. split; [by apply H1|].
    pose proof (po_ids _ _ _ _ _ Hok) as H3. rewrite Forall_forall in H3. specialize (H3 x Hx).
    rewrite <- H2 in H3. apply Forall_app in H3 as [H3 _]. rewrite Forall_forall in H3.
    apply Forall_forall. intros id Hid. apply H3. apply elem_of_list_join. eauto.
  Qed.

  Lemma kvs_ok : pairs_ok pp kvs.
  Proof.
    assert (HLV : L <= p_vlen pp) by (apply p_len_vlen; apply Hok).
    unfold pairs_ok. rewrite kvs_keys. split_and!.
    - apply Forall_app. split.
      + apply Forall_join, Forall_fmap, Forall_forall. intros x Hx. simpl. apply Forall_forall.
        intros [k v] Hkv. simpl. unfold ht_pairs, ht_pairs_from in Hkv. apply elem_of_lookup_imap_1 in Hkv as (i & b & E & Hb).
        injection E as -> ->. split; [apply Hok|]. apply elem_of_list_lookup_2 in Hb.
        pose proof (blocks_fit x Hx) as HF. rewrite Forall_forall in HF. destruct (HF b Hb) as [Lb _].
        apply ht_value_length. lia.
      + apply Forall_fmap, Forall_forall. intros j _. simpl. split; [apply Hok|].
        apply ht_value_length. simpl. lia.
    - apply table_keys_nodup.
    - intros size depth max_n E. destruct (po_cuckoo _ _ _ _ _ Hok _ _ _ E) as (H1 & H2 & H3). split_and!; auto.
      + by rewrite <- kvs_keys, fmap_length in H2.
      + intros Hf. apply H3. by apply table_key_searched.
  Qed.

  (** The store. *)
  Lemma st_pairs_in x kv : kv ∈ st_pairs pp x <->
    rest L x.2 <> [] /\ kv = (key x.1 0, le64 <$> rest L x.2).
  Proof.
    unfold st_pairs. fold L. destruct (rest L x.2) as [|y r].
    - split; [intros H; by apply elem_of_nil in H|by intros [? _]].
    - rewrite elem_of_list_singleton. split; [by intros ->|by intros [_ ->]].
  Qed.

  Lemma st_all : Forall (fun kv => admissible (sp_enc sp) kv /\ kv.2 <> [] /\ obj_ok (sp_enc sp) kv.1 kv.2)
    (db_st_pairs pp db).
  Proof.
    apply Forall_join, Forall_fmap, Forall_forall. intros x Hx. simpl. apply Forall_forall. intros kv Hkv.
    apply st_pairs_in in Hkv as [Hr ->]. simpl. split_and!.
    - unfold admissible. simpl. rewrite fmap_length. pose proof (rest_short L x.2 L_pos) as H.
      unfold L in H at 2. rewrite p_len_max in H by apply Hok. unfold max_list_size in H.
      change (sp_enc sp) with (pp_enc pp). lia.
    - by destruct (rest L x.2).
    - split; [apply Hok|]. apply Forall_fmap, Forall_forall. intros id _. simpl. rewrite le64_length.
      symmetry. apply (po_words _ _ _ _ _ Hok).
  Qed.

  Lemma st_accepted : accepted (sp_enc sp) (db_st_pairs pp db) = db_st_pairs pp db.
  Proof.
    pose proof st_all as HF. unfold accepted. induction HF as [|kv l H HF IH]; [done|].
    rewrite filter_cons_True by apply H. by rewrite IH.
  Qed.

  Lemma st_nodup : NoDup (db_st_pairs pp db).*1.
  Proof.
    assert (E : (db_st_pairs pp db).*1 = mjoin ((fun x => (st_pairs pp x).*1) <$> db)).
    { unfold db_st_pairs. clear. induction db as [|x d IH]; csimpl; [done|]. by rewrite fmap_app, IH. }
    rewrite E. apply NoDup_mjoin; [apply db_nodup|]. split.
    - intros x _. unfold st_pairs. destruct (rest (p_len pp) x.2); [constructor|]. csimpl.
      apply NoDup_singleton.
    - intros x y k Hx Hy Kx Ky. apply elem_of_list_fmap in Kx as (kv & -> & Kx).
      apply elem_of_list_fmap in Ky as (kv' & E2 & Ky).
      apply st_pairs_in in Kx as [_ ->]. apply st_pairs_in in Ky as [_ ->]. simpl in E2.
      destruct (db_word x Hx) as [Hw _], (db_word y Hy) as [Hw' _].
      destruct (key_inj x.1 y.1 0 0 Hw Hw' ltac:(lia) ltac:(lia) E2) as [E1 _]. by apply db_fst.
  Qed.

  Lemma st_values w : w ∈ ws ->
    values_of (key w 0) (db_st_pairs pp db) = le64 <$> rest L (ids_of w db).
  Proof.
    intros Hw. destruct (decide (key w 0 ∈ (db_st_pairs pp db).*1)) as [Hk|Hk].
    - apply elem_of_list_fmap in Hk as ([k v] & E & Hkv). simpl in E. subst k.
      rewrite (values_of_in (key w 0) v _ st_nodup Hkv).
      apply elem_of_list_join in Hkv as (l & Hl & Hx). apply elem_of_list_fmap in Hx as (x & -> & Hx).
      apply st_pairs_in in Hl as [_ E]. injection E as E ->.
      destruct (db_word x Hx) as [Hw' Ei].
      destruct (key_inj w x.1 0 0 Hw Hw' ltac:(lia) ltac:(lia) E) as [-> _]. by rewrite Ei.
    - unfold values_of. destruct (list_find (fun kv => kv.1 = key w 0) (db_st_pairs pp db)) as [[i kv]|] eqn:F.
      + apply list_find_Some in F as (F1 & F2 & _). destruct Hk. rewrite <- F2. apply elem_of_list_fmap_1.
        by eapply elem_of_list_lookup_2.
      + destruct (decide (w ∈ db.*1)) as [Hd|Hd].
        * apply elem_of_list_fmap in Hd as (x & -> & Hx). destruct (db_word x Hx) as [_ Ei]. rewrite Ei.
          destruct (rest L x.2) as [|y r] eqn:Er; [done|]. exfalso. apply Hk.
          apply elem_of_list_fmap. exists (key x.1 0, le64 <$> rest L x.2). split; [done|].
          apply elem_of_list_join. exists (st_pairs pp x). split; [|by apply elem_of_list_fmap_1].
          apply st_pairs_in. rewrite Er. done.
        * rewrite (ids_of_not_in db w Hd). by destruct (blocks_short L [] L_pos) as [_ ->].
  Qed.

  Lemma rest_ids x : x ∈ db -> le_val <$> (le64 <$> rest L x.2) = rest L x.2.
  Proof.
    intros Hx. destruct (blocks_all L x.2 L_pos) as [_ H2].
    pose proof (po_ids _ _ _ _ _ Hok) as H3. rewrite Forall_forall in H3. specialize (H3 x Hx).
    rewrite <- H2 in H3. apply Forall_app in H3 as [_ H3].
    clear -H3. induction H3 as [|id l H HF IH]; csimpl; [done|]. by rewrite IH, le64_val.
  Qed.

  Lemma pluto_correct b0 : pluto_new pp = Ok b0 ->
    exists b b' f c s,
      pluto_insert_db pp b0 db = (b, replicate (length db) (Ok tt)) /\
      (exists fuel, forall fuel', fuel <= fuel' -> pluto_build fuel' pp rand n_elts b = (b', Ok f)) /\
      pluto_open_client pp f = Ok c /\ pluto_open_server pp f = Ok s /\
      stored_blocks (pb_ht b') + length (ht_spilled (pb_ht b')) = length (table_keys pp rand n_elts db) /\
      forall w, w ∈ ws -> exists r,
        (exists fuel, forall fuel', fuel <= fuel' -> pluto_search fuel' pp c s w = Ok r) /\
        r ≡ₚ answer pp (lost_keys (table_keys pp rand n_elts db) (pb_ht b')) w (ids_of w db).
  Proof.
    intros Hb0. unfold pluto_new in Hb0. apply rbind_ok in Hb0 as (sb & Hsb & Hb0). injection Hb0 as <-.
    assert (Hdb : db_ok sp (db_st_pairs pp db)).
    { split; try apply Hok.
      - eapply Forall_impl; [apply st_all|]. by intros kv (_ & _ & ?).
      - rewrite st_accepted. apply st_nodup. }
    assert (Hlast : empty_lists_last (sp_enc sp) (db_st_pairs pp db)).
    { unfold empty_lists_last. rewrite st_accepted. exists (db_st_pairs pp db), []. rewrite app_nil_r.
      split_and!; [done| |constructor]. eapply Forall_impl; [apply st_all|]. by intros kv (_ & ? & _). }
    destruct (store_correct sp _ sb Hdb Hsb Hlast) as (b2 & f & s & E1 & E2 & E3 & E4).
    rewrite st_accepted in E4.
    destruct (ht_spec pp (po_words _ _ _ _ _ Hok) (po_block _ _ _ _ _ Hok) (po_key _ _ _ _ _ Hok) kvs kvs_ok)
      as (h & h' & hf & t & H1 & H2 & H3 & H4 & H5 & H6 & H7 & H8).
    unfold kvs in H1. rewrite ht_inserts_app in H1. injection H1 as H1 H1o.
    assert (HO : Forall (fun o => o = Ok tt) (replicate (length kvs) (@Ok unit tt))).
    { apply Forall_replicate. done. }
    unfold kvs in HO. rewrite <- H1o in HO. apply Forall_app in HO as [HO1 HO2].
    assert (HI : pluto_insert_db pp (PB sb (ht_new pp) 0) db =
      (PB (run_inserts sp sb (db_st_pairs pp db)).1 (ht_inserts (ht_new pp) (db_ht_pairs pp db)).1
         (0 + N.of_nat (n_blocks L db)), replicate (length db) (Ok tt))).
    { apply (pluto_insert_db_ok pp L_pos db (PB sb (ht_new pp) 0)); simpl; [done|].
      fold sc sp. rewrite E1. apply Forall_fmap, Forall_forall. intros kv Hkv. simpl.
      pose proof st_all as HF. rewrite Forall_forall in HF. by rewrite decide_True by apply (HF kv Hkv). }
    unfold open_store in E3. apply rbind_ok in E3 as (m & Em & E3). injection E3 as <-.
    eexists _, (PB b2 h' _), (hf, f), (TC m ∅), (PS (Store (sf_table f) ∅) t).
    split_and!; [exact HI| | | |simpl|].
    - eexists. intros fuel Hfu. unfold pluto_build. cbn [pb_ht pb_store pb_complete].
      rewrite N.add_0_l. rewrite (fill_ok pp rand _ 0); [|exact HO2]. cbn [fst snd].
      fold L. change (N.to_nat (n_full_blocks pp n_elts - N.of_nat (n_blocks L db))) with (n_dummies pp n_elts db).
      fold dpairs. rewrite H1, H2. cbn [fst snd]. fold sc sp. rewrite (E2 fuel Hfu). done.
    - unfold pluto_open_client, open_client. simpl. fold sc sp. by rewrite Em.
    - unfold pluto_open_server. simpl. by rewrite H6.
    - rewrite H4, <- kvs_keys. by rewrite fmap_length.
    - intros w Hw. simpl.
      set (lost := lost_keys (table_keys pp rand n_elts db) h').
      assert (HG : forall k v, (k, v) ∈ kvs -> ht_get pp t k = if decide (k ∈ lost) then Throw OutOfRange else Ok v).
      { intros k v Hkv. apply elem_of_list_lookup in Hkv as [i Hi]. rewrite (H7 i k v Hi).
        assert (Hti : table_keys pp rand n_elts db !! i = Some k).
        { by rewrite <- kvs_keys, list_lookup_fmap, Hi. }
        assert (HE : N.of_nat i ∈ ht_spilled h' <-> k ∈ lost).
        { unfold lost, lost_keys. rewrite elem_of_list_omap. split.
          - intros Hs. exists (N.of_nat i). by rewrite Nat2N.id.
          - intros (j & Hj & Hjk). assert (i = N.to_nat j) as ->; [|by rewrite N2Nat.id].
            eapply (NoDup_lookup _ i (N.to_nat j) k); [apply table_keys_nodup|done|done]. }
        destruct (decide (k ∈ lost)) as [Hk|Hk]; [rewrite decide_True by tauto|rewrite decide_False by tauto]; done. }
      assert (HL : p_loop (S (length (ids_of w db) / L)) pp t (sc_prf sc w) 1 = Ok
        (mjoin ((fun b => b ++ replicate (p_vlen pp - length b) 0%N) <$>
          surviving lost (full_keys pp w (ids_of w db)) (blocks L (ids_of w db)))) /\
        forall fuel, S (length (ids_of w db) / L) <= fuel -> p_loop fuel pp t (sc_prf sc w) 1 = Ok
        (mjoin ((fun b => b ++ replicate (p_vlen pp - length b) 0%N) <$>
          surviving lost (full_keys pp w (ids_of w db)) (blocks L (ids_of w db))))).
      { assert (HX : forall fuel, S (length (ids_of w db) / L) <= fuel -> p_loop fuel pp t (sc_prf sc w) (N.of_nat 1) = Ok
          (mjoin ((fun b => b ++ replicate (p_vlen pp - length b) 0%N) <$>
          surviving lost (full_keys pp w (ids_of w db)) (blocks L (ids_of w db))))).
        { intros fuel Hfu. unfold full_keys. fold L sc. rewrite <- (blocks_length L).
          rewrite <- (list_fmap_ext (derive_core_key sc (sc_prf sc w)) (block_key sc w))
            by (intros; apply derive_block_key).
          assert (HLV : L <= p_vlen pp) by (apply p_len_vlen; apply Hok).
          apply p_loop_ok.
          - rewrite blocks_length. lia.
          - rewrite blocks_length. destruct (decide (w ∈ db.*1)) as [Hd|Hd].
            + apply elem_of_list_fmap in Hd as (x & -> & Hx). destruct (db_word x Hx) as [_ ->].
              pose proof (po_short _ _ _ _ _ Hok) as HS. rewrite Forall_forall in HS. specialize (HS x Hx).
              fold L in HS. lia.
            + rewrite (ids_of_not_in db w Hd). simpl length. rewrite Nat.div_0_l by (pose proof L_pos; lia). done.
          - intros j b Hj. apply HG. apply elem_of_app. left.
            destruct (decide (w ∈ db.*1)) as [Hd|Hd].
            + apply elem_of_list_fmap in Hd as (x & -> & Hx). destruct (db_word x Hx) as [_ Ei]. rewrite Ei in Hj.
              apply elem_of_list_join. exists (ht_pairs pp x). split; [|by apply elem_of_list_fmap_1].
              apply elem_of_list_lookup. exists j. unfold ht_pairs, ht_pairs_from. rewrite list_lookup_imap.
              fold L. by rewrite Hj.
            + rewrite (ids_of_not_in db w Hd) in Hj. destruct (blocks_short L [] L_pos) as [Eb _]. by rewrite Eb in Hj.
          - rewrite blocks_length. fold (key w (1 + length (ids_of w db) / L)). apply H8.
            + apply Hok.
            + rewrite kvs_keys. intros Hk. apply table_key_inv in Hk as [(x & i & Hx & E & Hi)|Hk].
              * destruct (db_word x Hx) as [Hw' Ei].
                destruct (key_inj w x.1 (1 + length (ids_of w db) / L) i Hw Hw') as [E1' E2']; rewrite ?Ei; try lia; [done|].
                subst w. rewrite Ei in E2'. lia.
              * revert Hk. apply key_not_dummy; [done|lia].
            + intros size depth max_n Ek Hff.
              destruct (po_cuckoo _ _ _ _ _ Hok _ _ _ Ek) as (_ & _ & Hn). apply Hn. rewrite <- Hff.
              apply elem_of_app. left. apply elem_of_list_join. exists (search_keys pp db w).
              split; [apply key_in; lia|]. by apply elem_of_list_fmap_1.
          - destruct (decide (w ∈ db.*1)) as [Hd|Hd].
            + apply elem_of_list_fmap in Hd as (x & -> & Hx). destruct (db_word x Hx) as [_ ->].
              eapply Forall_impl; [by apply blocks_fit|]. intros b [Hb1 Hb2]. split; [lia|done].
            + rewrite (ids_of_not_in db w Hd). destruct (blocks_short L [] L_pos) as [-> _]. constructor. }
        split; [by apply (HX _ (le_n _))|exact HX]. }
      destruct HL as [_ HL].
      destruct (E4 (key w 0)) as (r & Hr & Pr). rewrite st_values in Pr by done.
      unfold get_list in Hr. apply rbind_ok in Hr as (bk & Hbk & Hr). apply rbind_ok in Hr as (d & Hd & Hr).
      injection Hr as <-.
      assert (Hbk' : get_buckets sp (Store (sf_table f) ∅) (key w 0) = Ok bk) by exact Hbk.
      eexists. split.
      + exists (S (length (ids_of w db) / L)). intros fuel Hfu.
        unfold pluto_search, pluto_server_search, pluto_search_request. cbn [ps_ht ps_store]. fold sc sp.
        rewrite (HL fuel Hfu). cbn [rbind]. fold (key w 0). rewrite Hbk'. cbn [rbind].
        unfold pluto_decode. cbn [fst snd tethys_decode]. fold sc sp. rewrite Hd. cbn [rbind tc_stash]. done.
      + unfold answer. fold L. rewrite app_nil_r. apply Permutation_app.
        * simpl in Pr. rewrite Pr. destruct (decide (w ∈ db.*1)) as [Hw'|Hw'].
          -- apply elem_of_list_fmap in Hw' as (x & -> & Hx). destruct (db_word x Hx) as [_ ->]. by rewrite rest_ids.
          -- rewrite (ids_of_not_in db w Hw'). by destruct (blocks_short L [] L_pos) as [_ ->].
        * apply reflexive_eq. f_equal. apply list_fmap_ext. intros i b Hb.
          assert (Hlen : length b = L); [|by rewrite Hlen].
          destruct (blocks_all L (ids_of w db) L_pos) as [HF _].
          apply elem_of_list_lookup_2, surviving_incl in Hb. rewrite Forall_forall in HF. by apply HF.
  Qed.
End db.
