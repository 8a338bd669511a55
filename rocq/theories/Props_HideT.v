(** Final theorems about what the servers of Tethys and Pluto see (property C78). *)
From stdpp Require Import prelude gmap.
From Coq Require Import ZArith NArith Lia.
From Verif Require Import Base GraphModel AllocModel EncModel EncProofs StoreModel StoreSpec KvModel SchemeModel SchemeSpec SchemeProofs EncStash
  VecModel CuckooModel PlutoModel PlutoSpec HideTSpec HideTProofs Props_Enc Props_Scheme Props_Pluto.
From Verif Require HideProofs.
Local Open Scope nat_scope.

(** ** The counters *)
Lemma insert_blocks_count sc token : let M := max_list_size (sp_enc (sc_store sc)) in
  forall ids b bc block b' bc' bl', M = 0 \/ length block < M ->
  insert_blocks sc token b bc block ids = (b', Ok (bc', bl')) -> bc' = bc + (length block + length ids) / M.
Proof.
  intros M. induction ids as [|id ids IH]; intros b bc block b' bc' bl' Hm H; cbn [insert_blocks] in H.
  - injection H as _ <- _. cbn [length]. destruct Hm as [->|Hm]; [cbn; lia|]. rewrite Nat.div_small by lia. lia.
  - fold M in H. case_bool_decide as Hl; rewrite app_length in Hl; cbn [length] in Hl |- *.
    + destruct (store_insert _ _ _ _) as [b1 [[]| | |]]; cbn [fst snd] in H; try done.
      apply IH in H; [|cbn; lia]. cbn [length] in H.
      replace (length block + S (length ids)) with (length ids + 1 * M) by lia. rewrite Nat.div_add by lia. cbn in H. lia.
    + apply IH in H; [|rewrite app_length; cbn [length]; lia]. rewrite app_length in H. cbn [length] in H. rewrite H. f_equal. f_equal. lia.
Qed.
Lemma insert_db_count sc : let M := max_list_size (sp_enc (sc_store sc)) in
  forall db b, Forall (fun r => r = Ok tt) (insert_db sc b db).2 ->
  tb_counters (insert_db sc b db).1 =
    foldl (fun c x => ctr_set c x.1 (N.of_nat (S (length x.2 / M)))) (tb_counters b) db.
Proof.
  intros M. induction db as [|[w ids] db IH]; intros b H; [done|]. cbn [insert_db fst snd] in *.
  apply Forall_cons in H as [H1 H2]. rewrite IH by done. cbn [foldl fst snd]. f_equal.
  unfold tethys_insert in *. destruct (insert_blocks sc (sc_prf sc w) (tb_store b) 0 [] ids) as [b1 [[bc bl]| | |]] eqn:E; try done.
  apply insert_blocks_count in E; [|fold M; cbn; lia]. fold M in E. cbn [length] in E. cbn [fst snd] in *.
  destruct (store_insert _ _ _ _) as [b2 [[]| | |]]; try done. cbn [fst snd tb_counters].
  rewrite E, Nat.add_1_r. done.
Qed.

(** ** The view *)
Definition t_request (sc : scheme) (db : database) (w : bytes) : sreq :=
  SReq (sc_prf sc w) (N.of_nat (t_blocks sc db w) mod 2 ^ 32).
Lemma server_loop_eq enc n hash c1 c2 prf h s token l :
  server_loop (Scheme (SPar enc n hash c1) prf h) s token l = server_loop (Scheme (SPar enc n hash c2) prf h) s token l.
Proof. induction l as [|i l IH]; [done|]. cbn [server_loop]. rewrite IH. done. Qed.

Lemma t_view_eq fuel enc n hash ks k prf h db :
  let sc := Scheme (SPar enc n hash (Encrypted ks k)) prf h in
  (forall x, isb (h x)) -> NoDup db.*1 -> t_succeeds fuel sc db ->
  exists pages, Forall (page_isb enc) pages /\ length pages = n /\
    forall ks' ws, t_view fuel (Scheme (SPar enc n hash (Encrypted ks' k)) prf h) db ws =
      Ok (masked enc ks' k pages,
          (fun w => (t_request sc db w, tethys_server_search sc (Store (masked enc ks' k pages) ∅) (t_request sc db w))) <$> ws).
Proof.
  intros sc Hh Hn (sb & b & f & c & E1 & E2 & E3 & E4).
  set (b' := insert_db sc (TB sb ∅) db) in *.
  assert (data_isb (sb_data (tb_store b'.1))) as Hd.
  { apply insert_db_isb; [exact Hh|]. unfold new_store_builder in E1. apply rbind_ok in E1 as (a & _ & E1).
    injection E1 as <-. constructor. }
  assert (b'.1 = b) as Eb by (by rewrite E2). rewrite Eb in Hd.
  unfold tethys_build in E3. cbn [snd] in E3.
  destruct (store_build_eq enc n hash ks k fuel (tb_store b)) as [E3' _]. cbn [sc_store sc] in E3. rewrite E3' in E3.
  apply rbind_ok in E3 as (f0 & E0 & E3). injection E3 as <-.
  destruct (store_build_isb fuel enc n hash (tb_store b) f0 Hd E0) as [Hp Hl].
  exists (sf_table f0). split; [done|]. split; [done|]. intros ks' ws. unfold t_view.
  assert (new_store_builder (sc_store (Scheme (SPar enc n hash (Encrypted ks' k)) prf h)) = Ok sb) as -> by exact E1. cbn [rbind].
  rewrite (insert_db_eq enc n hash (Encrypted ks' k) (Encrypted ks k) prf h). fold sc. fold b'. rewrite Eb.
  unfold tethys_build. cbn [snd sc_store].
  destruct (store_build_eq enc n hash ks' k fuel (tb_store b)) as [-> _]. rewrite E0. cbn [rbind].
  assert (open_client (Scheme (SPar enc n hash (Encrypted ks' k)) prf h) (tb_counters b) (masked_files enc n ks' k f0) = Ok c) as -> by exact E4.
  cbn [rbind]. f_equal. f_equal. apply list_fmap_ext. intros _ w _.
  assert (tethys_search_request (Scheme (SPar enc n hash (Encrypted ks' k)) prf h) c w = t_request sc db w) as ->.
  { unfold tethys_search_request, t_request. f_equal. unfold ctr_get.
    assert (tc_counters c = tb_counters b) as ->.
    { unfold open_client in E4. apply rbind_ok in E4 as (m & _ & E4). by injection E4 as <-. }
    rewrite <- Eb. unfold b'. rewrite insert_db_count; [|fold b'; rewrite E2; by apply Forall_replicate].
    rewrite (counters_foldl (fun x => N.of_nat (S (length x.2 / _)))) by done. unfold t_blocks, ids_of.
    destruct (list_find (fun x : bytes * list N => x.1 = w) db) as [[i x]|] eqn:Ef.
    - apply list_find_Some in Ef as (Ef & Ew & _). rewrite decide_True; [done|].
      apply elem_of_list_lookup_2 in Ef. apply elem_of_list_fmap. by exists x.
    - rewrite decide_False; [done|]. intros Hw. apply elem_of_list_fmap in Hw as (x & -> & Hx).
      apply list_find_None in Ef. rewrite Forall_forall in Ef. by apply (Ef x Hx). }
  f_equal. unfold tethys_server_search. unfold sc. apply server_loop_eq.
Qed.

(** ** The bijection *)
Section pads.
  Context (enc : eparams) (n : nat) (pages pages' : list bytes).
  Hypothesis (Hn : (Z.of_nat n < 2 ^ 64)%Z) (Hp : Forall (page_isb enc) pages) (Hp' : Forall (page_isb enc) pages')
    (Hl : length pages = n) (Hl' : length pages' = n).
  Definition pads : list (bytes * bytes * (bytes -> bytes)) :=
    imap (fun i q => (nonce_of i, nonce_of i, HideProofs.xor_bytes (HideProofs.xor_bytes q.1 q.2))) (zip pages pages').
  Definition okp (v : bytes) : Prop := length v = kp_page enc /\ isb v.
  Lemma pads_fst : pads.*1.*1 = nonce_of <$> seq 0 n.
  Proof.
    unfold pads. assert (length (zip pages pages') = n) as E by (rewrite zip_with_length; lia). revert E.
    generalize (zip pages pages'). intros l. rewrite <- !list_fmap_compose, fmap_imap.
    intros <-. apply list_eq. intros i. rewrite list_lookup_imap, list_lookup_fmap.
    destruct (l !! i) as [x|] eqn:E; cbn.
    - rewrite lookup_seq_lt by (by eapply lookup_lt_Some). done.
    - rewrite lookup_seq_ge; [done|]. by apply lookup_ge_None.
  Qed.
  Lemma pads_snd : pads.*1.*2 = pads.*1.*1.
  Proof.
    unfold pads. rewrite <- !list_fmap_compose, !fmap_imap. done.
  Qed.
  Lemma nonces_nodup : NoDup (nonce_of <$> seq 0 n).
  Proof.
    assert (Hinj : forall l, NoDup l -> (forall v, v ∈ l -> v < n) -> NoDup (nonce_of <$> l)).
    { induction 1 as [|v l Hv Hl0 IHl]; intros Hb; csimpl; constructor.
      - intros Hin. apply elem_of_list_fmap in Hin as (w & Hw & Hin).
        assert (v < n) by (apply Hb; left). assert (w < n) by (apply Hb; by right).
        apply nonce_inj in Hw; [by subst| |]; lia.
      - apply IHl. intros w Hw. apply Hb. by right. }
    apply Hinj; [apply NoDup_seq|]. intros v Hv. apply elem_of_seq in Hv. lia.
  Qed.
  Lemma pads_in i p p' : pages !! i = Some p -> pages' !! i = Some p' ->
    (nonce_of i, nonce_of i, HideProofs.xor_bytes (HideProofs.xor_bytes p p')) ∈ pads.
  Proof.
    intros E E'. apply elem_of_list_lookup. exists i. unfold pads. rewrite list_lookup_imap.
    rewrite lookup_zip_with, E. cbn. by rewrite E'.
  Qed.
  Lemma pads_ok : HideProofs.corr_ok okp pads.
  Proof.
    apply Forall_lookup. intros i t Ht v [Hv1 Hv2]. unfold pads in Ht. rewrite list_lookup_imap in Ht.
    apply fmap_Some in Ht as ([p p'] & E & ->). apply lookup_zip_with_Some in E as (q & q' & E & E1 & E2). injection E as <- <-.
    destruct (Forall_lookup_1 _ _ _ _ Hp E1) as [L1 B1]. destruct (Forall_lookup_1 _ _ _ _ Hp' E2) as [L2 B2].
    cbn [fst snd]. destruct (HideProofs.xor_bytes_ok p p') as (J1 & J2 & _); [lia|done|done|].
    destruct (HideProofs.xor_bytes_ok (HideProofs.xor_bytes p p') v) as (I1 & I2 & I3); [lia|done|done|].
    unfold okp. rewrite I1. done.
  Qed.
  Definition t_there : (bytes -> bytes) -> bytes -> bytes := HideProofs.there pads.
  Definition t_back : (bytes -> bytes) -> bytes -> bytes := HideProofs.back pads.
  Lemma t_bijection : pad_bijection (kp_page enc) t_there t_back.
  Proof.
    split; intros s Hs; [split; intros nc|intros nc; split].
    - apply (HideProofs.there_ok okp); [apply pads_ok|exact Hs].
    - apply (HideProofs.back_ok okp); [apply pads_ok|exact Hs].
    - apply (HideProofs.back_there okp); [apply pads_ok|exact Hs].
    - apply (HideProofs.there_back okp); [apply pads_ok|exact Hs].
  Qed.
  Lemma t_there_out s nc : (forall i, i < n -> nc <> nonce_of i) -> t_there s nc = s nc.
  Proof.
    intros H. assert (nc ∉ pads.*1.*1).
    { rewrite pads_fst. intros Hin. apply elem_of_list_fmap in Hin as (i & -> & Hi). apply elem_of_seq in Hi. by apply (H i); [lia|]. }
    apply HideProofs.there_out; [done|by rewrite pads_snd].
  Qed.
  Lemma xor3 a p p' : length a = length p -> length p = length p' ->
    EncModel.xor_bytes (HideProofs.xor_bytes (HideProofs.xor_bytes p p') a) p' = EncModel.xor_bytes a p.
  Proof.
    revert p p'. induction a as [|x a IH]; intros [|y p] [|z p'] H1 H2; try done. injection H1 as H1. injection H2 as H2.
    unfold EncModel.xor_bytes, HideProofs.xor_bytes in *. cbn [zip_with]. f_equal; [|by apply IH].
    rewrite (N.lxor_comm (N.lxor y z) x), !N.lxor_assoc. f_equal. by rewrite N.lxor_nilpotent, N.lxor_0_r.
  Qed.
  Lemma masked_same ks k s : pad_ok (kp_page enc) s ->
    masked enc (fun k' nc len => if decide (k' = k) then take len (s nc) else ks k' nc len) k pages =
    masked enc (fun k' nc len => if decide (k' = k) then take len (t_there s nc) else ks k' nc len) k pages'.
  Proof.
    intros Hs. apply list_eq. intros i. unfold masked. rewrite !list_lookup_imap, !decide_True by done.
    destruct (pages !! i) as [p|] eqn:E.
    - assert (is_Some (pages' !! i)) as [p' E'] by (apply lookup_lt_is_Some; rewrite Hl', <- Hl; by eapply lookup_lt_Some).
      rewrite E'. cbn. f_equal. unfold t_there.
      rewrite (HideProofs.there_spec pads s (nonce_of i) (nonce_of i) (HideProofs.xor_bytes (HideProofs.xor_bytes p p')));
        [|rewrite pads_fst; apply nonces_nodup|rewrite pads_snd, pads_fst; apply nonces_nodup|by apply pads_in].
      destruct (Forall_lookup_1 _ _ _ _ Hp E) as [L1 B1]. destruct (Forall_lookup_1 _ _ _ _ Hp' E') as [L2 B2].
      destruct (Hs (nonce_of i)) as [L3 B3].
      destruct (HideProofs.xor_bytes_ok p p') as (J1 & J2 & _); [lia|done|done|].
      destruct (HideProofs.xor_bytes_ok (HideProofs.xor_bytes p p') (s (nonce_of i))) as (I1 & _ & _); [lia|done|done|].
      rewrite !take_ge by lia. symmetry. apply xor3; lia.
    - assert (pages' !! i = None) as ->; [|done]. apply lookup_ge_None. rewrite Hl', <- Hl. by apply lookup_ge_None.
  Qed.
End pads.

(** C78 (Tethys): the table, the requests and the answers are the same for two databases
    in which the searched keywords have the same numbers of blocks, if the keystream is
    random: a bijection of the keystreams turns what the server sees of one database into
    what it sees of the other one. *)
Theorem C78_tethys_hidden :
  forall fuel fuel' sc db db' ws,
    encrypts sc -> (Z.of_nat (sp_n (sc_store sc)) < 2 ^ 64)%Z ->
    (forall x, Forall (fun b => (b < 256)%N) (sc_hash sc x)) ->
    NoDup db.*1 -> NoDup db'.*1 ->
    t_succeeds fuel sc db -> t_succeeds fuel' sc db' ->
    (forall w, w ∈ ws -> t_blocks sc db w = t_blocks sc db' w) ->
    exists there back, pad_bijection (kp_page (sp_enc (sc_store sc))) there back /\
      (forall s nc, (forall i, i < sp_n (sc_store sc) -> nc <> nonce_of i) -> there s nc = s nc) /\
      forall s, pad_ok (kp_page (sp_enc (sc_store sc))) s ->
        exists v, t_view fuel (with_pad sc s) db ws = Ok v /\ t_view fuel' (with_pad sc (there s)) db' ws = Ok v.
Proof.
  intros fuel fuel' [[enc n hash c] prf h] db db' ws (ks & k & Hc) Hn Hh Hd Hd' Hs Hs' Hb. cbn in Hc. subst c.
  destruct (t_view_eq fuel enc n hash ks k prf h db Hh Hd Hs) as (pages & Hp & Hl & HV).
  destruct (t_view_eq fuel' enc n hash ks k prf h db' Hh Hd' Hs') as (pages' & Hp' & Hl' & HV').
  exists (t_there pages pages'), (t_back pages pages'). split; [by eapply t_bijection|]. split; [intros s nc Hnc; by eapply t_there_out|].
  intros s Hok. eexists. unfold with_pad. cbn [sc_store sp_enc sp_n sp_hash sp_cipher sc_prf sc_hash]. rewrite HV, HV'. split; [done|].
  rewrite <- (masked_same enc n pages pages' Hn Hp Hp' Hl Hl' ks k s Hok). f_equal. f_equal. apply list_fmap_ext. intros i w Hw.
  assert (t_request (Scheme (SPar enc n hash (Encrypted ks k)) prf h) db w = t_request (Scheme (SPar enc n hash (Encrypted ks k)) prf h) db' w) as ->; [|done].
  unfold t_request. rewrite Hb; [done|by eapply elem_of_list_lookup_2].
Qed.
Print Assumptions C78_tethys_hidden.

(** Two databases over a random keystream; the searched keyword has 23 or 25 documents. *)
Definition ex_hide_db : database := [([1%N], ex_list 23); ([2%N], ex_list 3)].
Definition ex_hide_db' : database := [([3%N], ex_list 5); ([1%N], reverse (ex_list 25)); ([4%N], [7%N])].
Lemma ex_sc_isb n x : Forall (fun b => (b < 256)%N) x -> Forall (fun b => (b < 256)%N) (sc_hash (ex_sc n) x).
Proof.
  intros Hx. apply Forall_take, Forall_app. split; [by apply Forall_drop|]. by apply Forall_replicate.
Qed.
(** The hash of [ex_sc], with bytes in its output whatever its input is. *)
Definition ex_bsc (n : nat) : scheme :=
  Scheme (sc_store (ex_sc n)) (sc_prf (ex_sc n)) (fun x => (fun b => b mod 256)%N <$> sc_hash (ex_sc n) x).
Example C78_ex :
  encrypts (ex_bsc 4) /\ (forall x, Forall (fun b => (b < 256)%N) (sc_hash (ex_bsc 4) x)) /\
  NoDup ex_hide_db.*1 /\ NoDup ex_hide_db'.*1 /\
  t_succeeds 1000 (ex_bsc 4) ex_hide_db /\ t_succeeds 1000 (ex_bsc 4) ex_hide_db' /\
  (forall w, w ∈ [[1%N]; [5%N]] -> t_blocks (ex_bsc 4) ex_hide_db w = t_blocks (ex_bsc 4) ex_hide_db' w) /\
  ids_of [1%N] ex_hide_db <> ids_of [1%N] ex_hide_db'.
Proof.
  split; [by eexists _, _|]. split; [intros x; apply Forall_fmap, Forall_true; intros b; by apply N.mod_lt|].
  split; [apply (bool_decide_unpack _); by vm_compute|]. split; [apply (bool_decide_unpack _); by vm_compute|].
  split; [eexists _, _, _, _; split; [by vm_compute|]; split; [by vm_compute|]; split; by vm_compute|].
  split; [eexists _, _, _, _; split; [by vm_compute|]; split; [by vm_compute|]; split; by vm_compute|].
  split; [|done]. apply Forall_forall. apply (bool_decide_unpack _). by vm_compute.
Qed.

(** ** Two tables under one key *)
Lemma masked_inj enc ks k p p' : (forall nc, length (ks k nc (kp_page enc)) = kp_page enc) ->
  Forall (page_isb enc) p -> Forall (page_isb enc) p' -> masked enc ks k p = masked enc ks k p' -> p = p'.
Proof.
  intros Hk Hp Hp' E. apply list_eq. intros i. pose proof (f_equal (fun l => l !! i) E) as Ei. cbn in Ei.
  unfold masked in Ei. rewrite !list_lookup_imap in Ei.
  destruct (p !! i) as [x|] eqn:E1, (p' !! i) as [y|] eqn:E2; cbn in Ei; try done. injection Ei as Ei. f_equal.
  destruct (Forall_lookup_1 _ _ _ _ Hp E1) as [L1 _]. destruct (Forall_lookup_1 _ _ _ _ Hp' E2) as [L2 _].
  pose proof (Hk (nonce_of i)) as L3. clear -Ei L1 L2 L3. revert Ei L1 L2 L3.
  generalize (ks k (nonce_of i) (kp_page enc)). generalize (kp_page enc). intros m a.
  revert m x y. induction a as [|z a IH]; intros m x y E L1 L2 L3; cbn [length] in L3; rewrite <- L3 in L1, L2; clear L3 m.
  - by destruct x, y.
  - destruct x as [|u x], y as [|v y]; try done. unfold xor_bytes in *. cbn [zip_with] in E.
    pose proof (f_equal (fun l => head l) E) as E1. pose proof (f_equal (fun l => tail l) E) as E2. cbn in E1, E2.
    injection E1 as E1. f_equal.
    + rewrite <- (N.lxor_0_l u), <- (N.lxor_nilpotent z), N.lxor_assoc, E1, <- N.lxor_assoc, N.lxor_nilpotent. apply N.lxor_0_l.
    + apply (IH (length a)); [done|by injection L1|by injection L2|done].
Qed.
Lemma masked_zero enc k p : Forall (page_isb enc) p -> masked enc (fun _ _ len => replicate len 0%N) k p = p.
Proof.
  intros Hp. apply list_eq. intros i. unfold masked. rewrite list_lookup_imap. destruct (p !! i) as [x|] eqn:E; [|done]. cbn. f_equal.
  destruct (Forall_lookup_1 _ _ _ _ Hp E) as [<- _]. unfold xor_bytes. clear. induction x as [|y x IH]; [done|]. cbn. by f_equal.
Qed.
(** The nonce of a page is its index only: a server that gets the tables of two builds with
    the same key sees whether they are the same, and more generally the difference of their
    contents. *)
Theorem C78_same_key :
  forall fuel fuel' sc db db',
    encrypts sc -> (forall x, Forall (fun b => (b < 256)%N) (sc_hash sc x)) ->
    NoDup db.*1 -> NoDup db'.*1 -> t_succeeds fuel sc db -> t_succeeds fuel' sc db' ->
    exists pages pages', length pages = sp_n (sc_store sc) /\ length pages' = sp_n (sc_store sc) /\
      forall s, pad_ok (kp_page (sp_enc (sc_store sc))) s ->
        exists t t', t_view fuel (with_pad sc s) db [] = Ok (t, []) /\ t_view fuel' (with_pad sc s) db' [] = Ok (t', []) /\
          zip_with EncModel.xor_bytes t t' = zip_with EncModel.xor_bytes pages pages'.
Proof.
  intros fuel fuel' [[enc n hash c] prf h] db db' (ks & k & Hc) Hh Hd Hd' Hs Hs'. cbn in Hc. subst c.
  destruct (t_view_eq fuel enc n hash ks k prf h db Hh Hd Hs) as (pages & Hp & Hl & HV).
  destruct (t_view_eq fuel' enc n hash ks k prf h db' Hh Hd' Hs') as (pages' & Hp' & Hl' & HV').
  exists pages, pages'. split; [done|]. split; [done|]. intros s Hok. eexists _, _. unfold with_pad.
  cbn [sc_store sp_enc sp_n sp_hash sp_cipher sc_prf sc_hash]. rewrite HV, HV'. split; [done|]. split; [done|].
  apply list_eq. intros i. rewrite !lookup_zip_with. unfold masked. rewrite !list_lookup_imap.
  destruct (pages !! i) as [x|] eqn:E1; [|done]. destruct (pages' !! i) as [y|] eqn:E2; [|done]. cbn. f_equal.
  destruct (Forall_lookup_1 _ _ _ _ Hp E1) as [L1 _]. destruct (Forall_lookup_1 _ _ _ _ Hp' E2) as [L2 _].
  rewrite decide_True by done. destruct (Hok (nonce_of i)) as [L3 _]. cbn in L3. rewrite take_ge by lia.
  clear -L1 L2 L3. revert L1 L2 L3. generalize (s (nonce_of i)). generalize (kp_page enc). intros m a.
  revert m x y. induction a as [|z a IH]; intros m x y L1 L2 L3; cbn [length] in L3; rewrite <- L3 in L1, L2; clear L3 m.
  - by destruct x, y.
  - destruct x as [|u x], y as [|v y]; try done. unfold xor_bytes in *. cbn [zip_with]. f_equal.
    + rewrite (N.lxor_comm z u), N.lxor_assoc. f_equal. rewrite <- N.lxor_assoc, N.lxor_nilpotent. apply N.lxor_0_l.
    + apply (IH (length a)); [by injection L1|by injection L2|done].
Qed.
Print Assumptions C78_same_key.

Lemma same_key_differs fuel enc n hash ks k prf h db db' :
  let sc := Scheme (SPar enc n hash (Encrypted ks k)) prf h in
  (forall x, isb (h x)) -> NoDup db.*1 -> NoDup db'.*1 -> t_succeeds fuel sc db -> t_succeeds fuel sc db' ->
  t_view fuel (Scheme (SPar enc n hash (Encrypted (fun _ _ len => replicate len 0%N) k)) prf h) db [] <>
  t_view fuel (Scheme (SPar enc n hash (Encrypted (fun _ _ len => replicate len 0%N) k)) prf h) db' [] ->
  forall s, pad_ok (kp_page enc) s -> t_view fuel (with_pad sc s) db [] <> t_view fuel (with_pad sc s) db' [].
Proof.
  intros sc Hh Hn Hn' Hs Hs' Hne s Hok E. apply Hne. clear Hne.
  destruct (t_view_eq fuel enc n hash ks k prf h db Hh Hn Hs) as (pages & Hp & Hl & HV).
  destruct (t_view_eq fuel enc n hash ks k prf h db' Hh Hn' Hs') as (pages' & Hp' & Hl' & HV').
  unfold with_pad, sc in E. cbn [sc_store sp_enc sp_n sp_hash sp_cipher sc_prf sc_hash] in E. rewrite HV, HV' in E.
  injection E as E.
  apply masked_inj in E; [|intros nc; rewrite decide_True by done; rewrite take_length; destruct (Hok nc); cbn in *; lia|done|done].
  rewrite HV, HV', !masked_zero by done. by rewrite E.
Qed.
Lemma pair_differs {A} (a b c : A) : b <> c -> (a, a) <> (b, c).
Proof. intros H E. apply H. injection E as <- <-. done. Qed.
Theorem C78_same_key_refuted :
  exists fuel sc db db',
    t_succeeds fuel sc db /\ t_succeeds fuel sc db' /\ encrypts sc /\
    forall s s', pad_ok (kp_page (sp_enc (sc_store sc))) s -> pad_ok (kp_page (sp_enc (sc_store sc))) s' ->
      (t_view fuel (with_pad sc s) db [], t_view fuel (with_pad sc s) db []) <>
      (t_view fuel (with_pad sc s') db [], t_view fuel (with_pad sc s') db' []).
Proof.
  destruct C78_ex as (He & Hh & Hn & Hn' & Hs & Hs' & _).
  exists 1000, (ex_bsc 4), ex_hide_db, ex_hide_db'. split; [exact Hs|]. split; [exact Hs'|]. split; [exact He|].
  intros s s' _ Hok. apply pair_differs.
  apply (same_key_differs 1000 ex_p 4 identity_hasher ex_ks [1%N; 2%N] _ _ ex_hide_db ex_hide_db' Hh Hn Hn' Hs Hs'); [|exact Hok].
  vm_compute. discriminate.
Qed.
Print Assumptions C78_same_key_refuted.

(** ** Pluto *)
Section pluto_cipher.
  Context (enc : eparams) (n : nat) (hash : bytes -> N * N) (prf h : bytes -> bytes) (ht : ht_kind).
  Definition pmk (c : cipher) : pparams := PPar (Scheme (SPar enc n hash c) prf h) ht.
  Context (c1 c2 : cipher).
  Lemma p_blocks_eq token : forall ids b bc block, p_blocks (pmk c1) token b bc block ids = p_blocks (pmk c2) token b bc block ids.
  Proof.
    induction ids as [|id ids IH]; intros b bc block; [done|]. cbn [p_blocks].
    change (p_len (pmk c1)) with (p_len (pmk c2)). case_bool_decide; [|apply IH].
    change (ht_value (pmk c1) (block ++ [id])) with (ht_value (pmk c2) (block ++ [id])).
    change (derive_core_key (pp_sc (pmk c1)) token bc) with (derive_core_key (pp_sc (pmk c2)) token bc).
    destruct (ht_insert _ _ _) as [h' [| | |]]; try done. cbn [fst snd]. apply IH.
  Qed.
  Lemma pluto_insert_eq b w ids : pluto_insert (pmk c1) b w ids = pluto_insert (pmk c2) b w ids.
  Proof. unfold pluto_insert. rewrite p_blocks_eq. done. Qed.
  Lemma pluto_insert_db_eq : forall db b, pluto_insert_db (pmk c1) b db = pluto_insert_db (pmk c2) b db.
  Proof. induction db as [|x db IH]; intros b; [done|]. cbn [pluto_insert_db]. by rewrite pluto_insert_eq, IH. Qed.
  Lemma fill_dummies_eq rand : forall m i t, fill_dummies (pmk c1) rand m i t = fill_dummies (pmk c2) rand m i t.
  Proof.
    induction m as [|m IH]; intros i t; [done|]. cbn [fill_dummies].
    change (ht_value (pmk c1) []) with (ht_value (pmk c2) []). destruct (ht_insert _ _ _) as [h' [| | |]]; try done.
    cbn [fst snd]. apply IH.
  Qed.
  Lemma p_loop_eq t token : forall fuel i, p_loop fuel (pmk c1) t token i = p_loop fuel (pmk c2) t token i.
  Proof.
    induction fuel as [|fuel IH]; intros i; [done|]. cbn [p_loop].
    change (ht_get (pmk c1) t (derive_core_key (pp_sc (pmk c1)) token (N.to_nat i))) with
      (ht_get (pmk c2) t (derive_core_key (pp_sc (pmk c2)) token (N.to_nat i))).
    destruct (ht_get _ _ _); [|done..]. by rewrite IH.
  Qed.
  Lemma pluto_search_eq fuel s token : pluto_server_search fuel (pmk c1) s token = pluto_server_search fuel (pmk c2) s token.
  Proof. unfold pluto_server_search. rewrite p_loop_eq. done. Qed.
End pluto_cipher.

Lemma pluto_build_eq enc n hash prf h ht ks k fuel rand n_elts b :
  (pluto_build fuel (pmk enc n hash prf h ht (Encrypted ks k)) rand n_elts b).2 =
  (f <~ (pluto_build fuel (pmk enc n hash prf h ht Plain) rand n_elts b).2; Ok (f.1, masked_files enc n ks k f.2)).
Proof.
  unfold pluto_build. change (n_full_blocks (pmk enc n hash prf h ht (Encrypted ks k)) n_elts) with
    (n_full_blocks (pmk enc n hash prf h ht Plain) n_elts).
  rewrite (fill_dummies_eq enc n hash prf h ht (Encrypted ks k) Plain).
  destruct (fill_dummies _ _ _ _ _) as [h1 [[]| | |]]; cbn [fst snd]; [|done..].
  change (ht_commit (pmk enc n hash prf h ht (Encrypted ks k)) h1) with (ht_commit (pmk enc n hash prf h ht Plain) h1).
  destruct (ht_commit _ _) as [h2 [hf| | |]]; cbn [fst snd]; [|done..].
  cbn [pmk pp_sc sc_store]. destruct (store_build_eq enc n hash ks k fuel (pb_store b)) as [-> _].
  by destruct (store_build fuel (SPar enc n hash Plain) (pb_store b)).2.
Qed.

Lemma p_blocks_store pp token : forall ids b bc block, pb_store (p_blocks pp token b bc block ids).1 = pb_store b.
Proof.
  induction ids as [|id ids IH]; intros b bc block; [done|]. cbn [p_blocks]. case_bool_decide; [|apply IH].
  destruct (ht_insert _ _ _) as [h' [| | |]]; try done. cbn [fst snd]. by rewrite IH.
Qed.
Lemma pluto_insert_db_isb pp : (forall x, isb (sc_hash (pp_sc pp) x)) -> forall db b, data_isb (sb_data (pb_store b)) ->
  data_isb (sb_data (pb_store (pluto_insert_db pp b db).1)).
Proof.
  intros Hh. induction db as [|[w ids] db IH]; intros b Hd; [done|]. cbn [pluto_insert_db fst snd]. apply IH.
  unfold pluto_insert. pose proof (p_blocks_store pp (sc_prf (pp_sc pp) w) ids b 1 []) as Es.
  destruct (p_blocks pp (sc_prf (pp_sc pp) w) b 1 [] ids) as [b1 [[bc bl]| | |]]; cbn [fst snd] in *; rewrite <- Es in Hd; [|done..].
  case_bool_decide; [|done]. cbn [fst pb_store]. apply store_insert_isb; [done|apply Hh|].
  apply Forall_fmap, Forall_true. intros x. apply le64_isb.
Qed.

Lemma p_view_eq fuel enc n hash ks k prf h ht rand n_elts db :
  let pp := pmk enc n hash prf h ht (Encrypted ks k) in
  (forall x, isb (h x)) -> p_succeeds fuel pp rand n_elts db ->
  exists b0 hf t pages, pluto_new pp = Ok b0 /\ Forall (page_isb enc) pages /\ length pages = n /\ ht_open pp hf = Ok t /\
    (pluto_insert_db pp b0 db).2 = replicate (length db) (Ok tt) /\
    (let b := (pluto_insert_db pp b0 db).1 in
     let d := fill_dummies pp rand (N.to_nat (n_full_blocks pp n_elts - pb_complete b)) 0 (pb_ht b) in
     d.2 = Ok tt /\ (ht_commit pp d.1).2 = Ok hf) /\
    forall ks' ws, p_view fuel (pmk enc n hash prf h ht (Encrypted ks' k)) rand n_elts db ws =
      Ok (hf, masked enc ks' k pages,
          (fun w => (prf w, pluto_server_search fuel pp (PS (Store (masked enc ks' k pages) ∅) t) (prf w))) <$> ws).
Proof.
  intros pp Hh (b0 & b & f & s & E1 & E2 & E3 & E4).
  assert (data_isb (sb_data (pb_store b))) as Hd.
  { assert ((pluto_insert_db pp b0 db).1 = b) as <- by (by rewrite E2). apply pluto_insert_db_isb; [exact Hh|].
    unfold pluto_new in E1. apply rbind_ok in E1 as (sb & E1' & E1). injection E1 as <-.
    unfold new_store_builder in E1'. apply rbind_ok in E1' as (a & _ & E1'). injection E1' as <-. constructor. }
  unfold pp in E3. rewrite pluto_build_eq in E3. apply rbind_ok in E3 as (f0 & E0 & E3). injection E3 as <-.
  unfold pluto_open_server in E4. cbn [fst] in E4. apply rbind_ok in E4 as (t & Et & E4). injection E4 as <-.
  assert (exists d hf sf, fill_dummies pp rand (N.to_nat (n_full_blocks pp n_elts - pb_complete b)) 0 (pb_ht b) = (d, Ok tt) /\
    (ht_commit pp d).2 = Ok hf /\ (store_build fuel (SPar enc n hash Plain) (pb_store b)).2 = Ok sf /\ f0 = (hf, sf)) as (d & hf & sf & D1 & D2 & D3 & ->).
  { unfold pluto_build in E0. unfold pp. rewrite (fill_dummies_eq enc n hash prf h ht (Encrypted ks k) Plain).
    change (n_full_blocks (pmk enc n hash prf h ht (Encrypted ks k)) n_elts) with
      (n_full_blocks (pmk enc n hash prf h ht Plain) n_elts).
    destruct (fill_dummies _ _ _ _ _) as [d [[]| | |]]; cbn [fst snd] in E0; [|done..].
    exists d. change (ht_commit (pmk enc n hash prf h ht (Encrypted ks k)) d) with (ht_commit (pmk enc n hash prf h ht Plain) d).
    destruct (ht_commit _ d) as [h2 [hf| | |]]; cbn [fst snd] in E0 |- *; [|done..].
    apply rbind_ok in E0 as (sf & D3 & E0). injection E0 as <-. by exists hf, sf. }
  destruct (store_build_isb fuel enc n hash (pb_store b) sf Hd D3) as [Hp Hl].
  exists b0, hf, t, (sf_table sf). rewrite E2. cbn [fst snd]. rewrite D1. cbn [fst snd].
  split; [done|]. split; [done|]. split; [done|]. split; [exact Et|]. split; [done|]. split; [done|].
  intros ks' ws. unfold p_view.
  assert (pluto_new (pmk enc n hash prf h ht (Encrypted ks' k)) = Ok b0) as -> by exact E1. cbn [rbind].
  rewrite (pluto_insert_db_eq enc n hash prf h ht (Encrypted ks' k) (Encrypted ks k)). fold pp. rewrite E2. cbn [fst].
  rewrite pluto_build_eq, E0. cbn [rbind fst snd]. unfold pluto_open_server. cbn [fst snd].
  assert (ht_open (pmk enc n hash prf h ht (Encrypted ks' k)) hf = Ok t) as -> by exact Et. cbn [rbind].
  f_equal. f_equal. apply list_fmap_ext. intros _ w _. unfold pluto_search_request. cbn [pmk pp_sc sc_prf]. f_equal. apply pluto_search_eq.
Qed.

(** The hash table of a database is the one of its complete blocks. *)
Section full.
  Context (pp : pparams).
  Let L := p_len pp.
  Hypothesis (HL : 0 < L).
  Lemma p_blocks_app token l1 : forall b bc block l2, p_blocks pp token b bc block (l1 ++ l2) =
    match p_blocks pp token b bc block l1 with
    | (b', Ok (bc', block')) => p_blocks pp token b' bc' block' l2
    | r => r
    end.
  Proof.
    induction l1 as [|id l1 IH]; intros b bc block l2; [done|]. cbn [p_blocks app]. case_bool_decide; [|apply IH].
    destruct (ht_insert _ _ _) as [h' [[]| | |]]; try done. cbn [fst snd]. apply IH.
  Qed.
  Lemma p_blocks_short token ids : forall b bc block, length block + length ids < L ->
    p_blocks pp token b bc block ids = (b, Ok (bc, block ++ ids)).
  Proof.
    induction ids as [|id ids IH]; intros b bc block Hl; cbn [p_blocks]; [by rewrite app_nil_r|].
    cbn [length] in Hl. rewrite bool_decide_eq_false_2; [|fold L; rewrite app_length; cbn [length]; lia].
    rewrite IH; [by rewrite <- (assoc_L (++))|]. rewrite app_length. cbn [length]. lia.
  Qed.
  Lemma p_blocks_rest token m : forall ids b bc block b' r, length block + length ids = m * L -> length block < L ->
    p_blocks pp token b bc block ids = (b', Ok r) -> r.2 = [].
  Proof.
    intros ids. revert m. induction ids as [|id ids IH]; intros m b bc block b' r Hl Hb H; cbn [p_blocks] in H.
    - injection H as <- <-. cbn [length snd] in *. destruct m as [|m]; [by destruct block; [|cbn in Hl; lia]|]. nia.
    - fold L in H. case_bool_decide as E; rewrite app_length in E; cbn [length] in *.
      + destruct (ht_insert _ _ _) as [h' [[]| | |]]; try done. cbn [fst snd] in H.
        apply (IH (m - 1)) in H; [done| |cbn; lia]. cbn. destruct m as [|m]; [lia|]. cbn. lia.
      + apply (IH m) in H; [done|rewrite app_length; cbn; lia|rewrite app_length; cbn; lia].
  Qed.
  (** Another store. *)
  Lemma p_blocks_other token s : forall ids b bc block,
    p_blocks pp token (PB s (pb_ht b) (pb_complete b)) bc block ids =
    (let r := p_blocks pp token b bc block ids in (PB s (pb_ht r.1) (pb_complete r.1), r.2)).
  Proof.
    induction ids as [|id ids IH]; intros b bc block; [done|]. cbn [p_blocks pb_ht pb_complete pb_store]. case_bool_decide; [|apply IH].
    destruct (ht_insert _ _ _) as [h' [[]| | |]]; try done. cbn [fst snd].
    apply (IH (PB (pb_store b) h' (pb_complete b + 1))).
  Qed.
  Definition ht_of (b : pbuilder) : ht_builder * N := (pb_ht b, pb_complete b).
  Lemma pluto_insert_ht b w ids s : (pluto_insert pp b w ids).2 = Ok tt ->
    ht_of (pluto_insert pp b w ids).1 =
    ht_of (if decide (take (length ids / L * L) ids = []) then PB s (pb_ht b) (pb_complete b)
           else (pluto_insert pp (PB s (pb_ht b) (pb_complete b)) w (take (length ids / L * L) ids)).1).
  Proof.
    intros H. set (m := length ids / L * L).
    pose proof (Nat.div_mod (length ids) L ltac:(lia)) as Hdm. pose proof (Nat.mod_upper_bound (length ids) L ltac:(lia)) as Hmod.
    assert (length (take m ids) = m) as Htm by (rewrite take_length; unfold m; lia).
    assert (length (drop m ids) < L) as Hdr by (rewrite drop_length; unfold m; lia).
    unfold pluto_insert in *. rewrite <- (take_drop m ids), p_blocks_app in H |- *. rewrite p_blocks_other.
    rewrite (take_drop m ids) in *.
    destruct (p_blocks pp (sc_prf (pp_sc pp) w) b 1 [] (take m ids)) as [b1 [[bc bl]| | |]] eqn:E; try done.
    assert (length (@nil N) + length (take m ids) = length ids / L * L) as Htm' by (rewrite Htm; reflexivity).
    pose proof (p_blocks_rest _ (length ids / L) _ _ _ _ _ _ Htm' ltac:(cbn; lia) E) as Hbl. cbn in Hbl. subst bl.
    rewrite p_blocks_short in H |- * by (cbn [length]; lia). cbn [fst snd app] in *.
    assert (ht_of (if decide (take m ids = []) then PB s (pb_ht b) (pb_complete b) else PB s (pb_ht b1) (pb_complete b1)) = ht_of b1) as Ed.
    { destruct (decide (take m ids = [])) as [Hd|Hd]; [|reflexivity]. rewrite Hd in E. cbn in E. injection E as <- _. done. }
    rewrite bool_decide_eq_false_2 with (P := 0 < length []) by (cbn; lia).
    change (if decide (take m ids = []) then PB s (pb_ht b) (pb_complete b) else (PB s (pb_ht b1) (pb_complete b1), Ok tt).1)
      with (if decide (take m ids = []) then PB s (pb_ht b) (pb_complete b) else PB s (pb_ht b1) (pb_complete b1)).
    rewrite Ed. by case_bool_decide.
  Qed.
End full.

Lemma pluto_insert_db_ht pp : 0 < p_len pp -> forall db b b2, ht_of b = ht_of b2 ->
  Forall (fun r => r = Ok tt) (pluto_insert_db pp b db).2 ->
  ht_of (pluto_insert_db pp b db).1 = ht_of (pluto_insert_db pp b2 (full_part (p_len pp) db)).1.
Proof.
  intros HL. induction db as [|[w ids] db IH]; intros b b2 Hb H; [done|]. cbn [pluto_insert_db fst snd] in *.
  apply Forall_cons in H as [H1 H2]. pose proof (pluto_insert_ht pp HL b w ids (pb_store b2) H1) as E.
  assert (PB (pb_store b2) (pb_ht b) (pb_complete b) = b2) as Eb by (destruct b, b2; cbn in *; by injection Hb as -> ->).
  rewrite Eb in E. unfold full_part. rewrite fmap_cons, filter_cons. cbn [fst snd].
  destruct (decide (take (length ids / p_len pp * p_len pp) ids = [])) as [Hd|Hd].
  - rewrite decide_False; [|tauto]. by apply IH.
  - rewrite decide_True by done. cbn [pluto_insert_db fst snd]. by apply IH.
Qed.

(** C78 (Pluto): the complete blocks of the lists are not encrypted.  What the server sees of
    two databases is the same, over a random keystream, if the databases have the same
    complete blocks: only the rests are hidden. *)
Theorem C78_pluto_hidden :
  forall fuel pp rand n_elts db db' ws,
    encrypts (pp_sc pp) -> (Z.of_nat (sp_n (sc_store (pp_sc pp))) < 2 ^ 64)%Z ->
    (forall x, Forall (fun b => (b < 256)%N) (sc_hash (pp_sc pp) x)) -> 0 < p_len pp ->
    p_succeeds fuel pp rand n_elts db -> p_succeeds fuel pp rand n_elts db' ->
    full_part (p_len pp) db = full_part (p_len pp) db' ->
    exists there back, pad_bijection (kp_page (pp_enc pp)) there back /\
      (forall s nc, (forall i, i < sp_n (sc_store (pp_sc pp)) -> nc <> nonce_of i) -> there s nc = s nc) /\
      forall s, pad_ok (kp_page (pp_enc pp)) s ->
        exists v, p_view fuel (p_with_pad pp s) rand n_elts db ws = Ok v /\
          p_view fuel (p_with_pad pp (there s)) rand n_elts db' ws = Ok v.
Proof.
  intros fuel [[[enc n hash c] prf h] ht] rand n_elts db db' ws (ks & k & Hc) Hn Hh HL Hs Hs' Hf. cbn in Hc. subst c.
  destruct (p_view_eq fuel enc n hash ks k prf h ht rand n_elts db Hh Hs) as (b0 & hf & t & pages & N1 & Hp & Hl & O1 & R1 & C1 & HV).
  destruct (p_view_eq fuel enc n hash ks k prf h ht rand n_elts db' Hh Hs') as (b0' & hf' & t' & pages' & N2 & Hp' & Hl' & O2 & R2 & C2 & HV').
  rewrite N1 in N2. injection N2 as <-. unfold pmk in *. set (pp := PPar _ _) in *.
  assert (ht_of (pluto_insert_db pp b0 db).1 = ht_of (pluto_insert_db pp b0 db').1) as Eh.
  { rewrite (pluto_insert_db_ht _ HL db b0 b0 eq_refl); [|rewrite R1; by apply Forall_replicate].
    rewrite (pluto_insert_db_ht _ HL db' b0 b0 eq_refl); [|rewrite R2; by apply Forall_replicate].
    by rewrite Hf. }
  injection Eh as Eh1 Eh2. cbn zeta in C1, C2. rewrite Eh1, Eh2 in C1. destruct C1 as [_ C1], C2 as [_ C2].
  rewrite C1 in C2. injection C2 as <-. rewrite O1 in O2. injection O2 as <-.
  exists (t_there pages pages'), (t_back pages pages'). split; [by eapply t_bijection|]. split; [intros s nc Hnc; by eapply t_there_out|].
  intros s Hok. eexists. unfold p_with_pad, with_pad.
  assert (forall s, PPar (Scheme (SPar (sp_enc (sc_store (pp_sc pp))) (sp_n (sc_store (pp_sc pp))) (sp_hash (sc_store (pp_sc pp)))
    match sp_cipher (sc_store (pp_sc pp)) with
    | Plain => Plain
    | Encrypted ks k => Encrypted (fun k' nc len => if decide (k' = k) then take len (s nc) else ks k' nc len) k
    end) (sc_prf (pp_sc pp)) (sc_hash (pp_sc pp))) (pp_ht pp) =
    PPar (Scheme (SPar enc n hash (Encrypted (fun k' nc len => if decide (k' = k) then take len (s nc) else ks k' nc len) k)) prf h) ht) as Epp
    by reflexivity.
  rewrite !Epp, HV, HV'. split; [done|].
  rewrite <- (masked_same enc n pages pages' Hn Hp Hp' Hl Hl' ks k s Hok). done.
Qed.
Print Assumptions C78_pluto_hidden.

(** The same complete block and rests of two documents or one. *)
Definition ex_bpp : pparams := PPar (ex_bsc 4) KRocks.
Definition ex_ppdb : database := [([1%N], ex_list 12); ([2%N], ex_list 3)].
Definition ex_ppdb' : database := [([3%N], [5%N]); ([1%N], ex_list 10 ++ [77%N])].
Example C78_pluto_ex :
  encrypts (pp_sc ex_bpp) /\ (forall x, Forall (fun b => (b < 256)%N) (sc_hash (pp_sc ex_bpp) x)) /\ 0 < p_len ex_bpp /\
  p_succeeds 1000 ex_bpp ex_rand 40 ex_ppdb /\ p_succeeds 1000 ex_bpp ex_rand 40 ex_ppdb' /\
  full_part (p_len ex_bpp) ex_ppdb = full_part (p_len ex_bpp) ex_ppdb' /\ full_part (p_len ex_bpp) ex_ppdb = [([1%N], ex_list 10)].
Proof.
  split; [by eexists _, _|]. split; [intros x; apply Forall_fmap, Forall_true; intros b; by apply N.mod_lt|].
  split; [apply (bool_decide_unpack _); by vm_compute|].
  split; [eexists _, _, _, _; split; [by vm_compute|]; split; [by vm_compute|]; split; by vm_compute|].
  split; [eexists _, _, _, _; split; [by vm_compute|]; split; [by vm_compute|]; split; by vm_compute|].
  split; by vm_compute.
Qed.

(** Two databases with the same keywords and the same lengths, that no server confuses. *)
Lemma ex_rocks_view db pp0 :
  pp0 = ex_bpp -> p_succeeds 1000 pp0 ex_rand 40 db ->
  exists hf pages, (forall s, p_view 1000 (p_with_pad pp0 s) ex_rand 40 db [] = Ok (hf, pages s, [])) /\
   exists b0, pluto_new pp0 = Ok b0 /\
    (let b := (pluto_insert_db pp0 b0 db).1 in
     let d := fill_dummies pp0 ex_rand (N.to_nat (n_full_blocks pp0 40 - pb_complete b)) 0 (pb_ht b) in
     d.2 = Ok tt /\ (ht_commit pp0 d.1).2 = Ok hf).
Proof.
  intros -> Hs.
  destruct (p_view_eq 1000 ex_p 4 identity_hasher ex_ks [1%N; 2%N] (sc_prf (ex_sc 4)) (sc_hash (ex_bsc 4)) KRocks ex_rand 40 db)
    as (b0 & hf & t & pages & N1 & Hp & Hl & O1 & R1 & C1 & HV).
  - intros x. apply Forall_fmap, Forall_true. intros b. by apply N.mod_lt.
  - exact Hs.
  - eexists hf, _. split; [|exists b0; split; [exact N1|exact C1]].
    intros s. unfold p_with_pad, with_pad. exact (HV _ []).
Qed.
Theorem C78_pluto_refuted :
  exists fuel pp rand n_elts db db',
    encrypts (pp_sc pp) /\ p_succeeds fuel pp rand n_elts db /\ p_succeeds fuel pp rand n_elts db' /\
    ((fun x => (x.1, length x.2)) <$> db) = ((fun x => (x.1, length x.2)) <$> db') /\
    forall s s', p_view fuel (p_with_pad pp s) rand n_elts db [] <> p_view fuel (p_with_pad pp s') rand n_elts db' [].
Proof.
  assert (H1 : p_succeeds 1000 ex_bpp ex_rand 40 [([1%N], ex_list 10)])
    by (eexists _, _, _, _; split; [by vm_compute|]; split; [by vm_compute|]; split; by vm_compute).
  assert (H2 : p_succeeds 1000 ex_bpp ex_rand 40 [([1%N], reverse (ex_list 10))])
    by (eexists _, _, _, _; split; [by vm_compute|]; split; [by vm_compute|]; split; by vm_compute).
  exists 1000, ex_bpp, ex_rand, 40%N, [([1%N], ex_list 10)], [([1%N], reverse (ex_list 10))].
  split; [by eexists _, _|]. split; [exact H1|]. split; [exact H2|]. split; [by vm_compute|]. intros s s'.
  destruct (ex_rocks_view _ _ eq_refl H1) as (hf & pages & -> & b0 & N1 & _ & C1).
  destruct (ex_rocks_view _ _ eq_refl H2) as (hf' & pages' & -> & b0' & N2 & _ & C2). intros E. injection E as -> _.
  rewrite N1 in N2. injection N2 as <-. vm_compute in N1. injection N1 as <-.
  clear -C1 C2. rewrite <- C2 in C1. clear C2.
  apply (f_equal (fun r => match r with Ok (FRocks m) => m !! sc_hash (ex_bsc 4) (key_input (ex_sc 4) [1%N] 1) | _ => None end)) in C1.
  vm_compute in C1. discriminate C1.
Qed.
Print Assumptions C78_pluto_refuted.
