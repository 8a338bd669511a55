(** Proofs about the files of a builder of Oceanus. *)
From stdpp Require Import prelude.
From Coq Require Import ZArith NArith Lia.
From Verif Require Import Base EncModel VecModel VecSpec VecProofs CuckooModel CuckooSpec CuckooProofs
  LifeModel LifeSpec.
Local Open Scope nat_scope.

(** * Disk *)
Definition on (p : path) (o : fop) : Prop :=
  match o with Create q | Trunc q _ | Write q _ _ | Unlink q => q = p end.
(** The operation may change the content at [p]. *)
Definition touches (p : path) (o : fop) : Prop :=
  match o with Create _ => False | Trunc q _ | Write q _ _ | Unlink q => q = p end.

Lemma do_ops_app d a b : do_ops d (a ++ b) = do_ops (do_ops d a) b.
Proof. apply foldl_app. Qed.

Lemma content_set_same p f d : content p (dk_set p f d) = default [] f.
Proof. by destruct p. Qed.
Lemma content_set_other p q f d : p <> q -> content p (dk_set q f d) = content p d.
Proof. by destruct p, q. Qed.

Lemma content_untouched p o d : ~ touches p o -> content p (do_op d o) = content p d.
Proof.
  destruct o as [q|q n|q off bs|q]; simpl; intros H.
  - destruct p, q; done.
  - destruct p, q; done.
  - destruct p, q; done.
  - destruct p, q; done.
Qed.
Lemma content_untouched_ops p os : Forall (fun o => ~ touches p o) os -> forall d,
  content p (do_ops d os) = content p d.
Proof.
  induction 1 as [|o os H _ IH]; intros d; [done|]. cbn [do_ops foldl].
  change (foldl do_op (do_op d o) os) with (do_ops (do_op d o) os). rewrite IH. by apply content_untouched.
Qed.
Lemma content_untouched_take p os d k : Forall (fun o => ~ touches p o) os ->
  content p (dies d os k) = content p d.
Proof. intros H. apply content_untouched_ops. by apply Forall_take. Qed.

(** * System calls and vectors *)
Lemma reserve_file p sz v n d : content p d = v_file v ->
  content p (do_ops d (reserve_ops p sz v n)) = v_file (vec_reserve sz v n).
Proof.
  intros H. unfold reserve_ops, vec_reserve. case_bool_decide; [|done].
  cbn [do_ops foldl do_op]. rewrite content_set_same. simpl. by rewrite H.
Qed.
Lemma push_file p v al val d : content p d = v_file v ->
  content p (do_ops d (push_ops p v al val)) = v_file (vec_push v al val).1.
Proof.
  intros H. unfold push_ops, vec_push. destruct (v_committed v); [done|].
  destruct (v_direct v && negb al); [done|].
  cbn [do_ops foldl do_op]. rewrite content_set_same. simpl. by rewrite H.
Qed.

Lemma push_ops_on p q v al val : p <> q -> Forall (fun o => ~ touches p o) (push_ops q v al val).
Proof.
  intros H. unfold push_ops. destruct (v_committed v); [done|]. destruct (v_direct v && negb al); [done|].
  repeat constructor. simpl. auto.
Qed.
Lemma reserve_ops_on p q sz v n : p <> q -> Forall (fun o => ~ touches p o) (reserve_ops q sz v n).
Proof. intros H. unfold reserve_ops. case_bool_decide; [|done]. repeat constructor. simpl. auto. Qed.

Lemma write_ops_on sz data slots : forall out,
  Forall (fun o => ~ touches Tmp o) (write_ops sz data slots out).
Proof.
  induction slots as [|s slots IH]; intros out; cbn [write_ops]; [constructor|].
  destruct (if is_empty (cv_index s) then _ else _); try constructor.
  apply Forall_app. split; [by apply push_ops_on|].
  destruct (vec_push out false a) as [out' [| | |]]; try constructor. apply IH.
Qed.
Lemma insert_ops_on b k v : Forall (fun o => ~ touches Tab o) (insert_ops b k v).
Proof. unfold insert_ops. destruct (cb_committed b); [done|]. by apply push_ops_on. Qed.

Lemma write_file sz data slots : forall out d, content Tab d = v_file out ->
  content Tab (do_ops d (write_ops sz data slots out)) = v_file (cb_write sz data slots out).1.
Proof.
  induction slots as [|s slots IH]; intros out d H; cbn [write_ops cb_write]; [done|].
  destruct (if is_empty (cv_index s) then _ else _) as [pl| | |]; try done.
  rewrite do_ops_app.
  pose proof (push_file Tab out false pl d H) as H'.
  destruct (vec_push out false pl) as [out' r]. cbn [fst] in H'.
  destruct r; try exact H'. by apply IH.
Qed.

Lemma open_file sz f : v_file (open_vec sz f false) = f.
Proof. unfold open_vec. by case_bool_decide. Qed.

Lemma vec_push_pending v al val : v_pending (vec_push v al val).1 = v_pending v.
Proof. unfold vec_push. destruct (v_committed v); [done|]. by destruct (v_direct v && negb al). Qed.
Lemma cb_write_pending sz data slots : forall out,
  v_pending (cb_write sz data slots out).1 = v_pending out.
Proof.
  induction slots as [|s slots IH]; intros out; cbn [cb_write]; [done|].
  destruct (if is_empty (cv_index s) then _ else _) as [pl| | |]; try done.
  pose proof (vec_push_pending out false pl) as H.
  destruct (vec_push out false pl) as [out' r]. cbn [fst] in H.
  destruct r; try exact H. by rewrite IH.
Qed.
Lemma close_file v : v_pending v = [] -> vec_close v = v_file v.
Proof.
  intros H. unfold vec_close, vec_commit, vec_wait. rewrite H. by destruct (v_committed v).
Qed.
Lemma reserve_pending sz v n : v_pending (vec_reserve sz v n) = v_pending v.
Proof. unfold vec_reserve. by case_bool_decide. Qed.
Lemma open_pending sz f : v_pending (open_vec sz f false) = [].
Proof. unfold open_vec. by case_bool_decide. Qed.

(** The system calls of a commit leave the file of the table that [cb_commit]
    says. *)
Lemma commit_file sz b d :
  content Tab (do_ops d (commit_ops sz b (content Tab d))) = (cb_commit sz b (content Tab d)).1.2.
Proof.
  unfold commit_ops, cb_commit. destruct (cb_committed b); [done|].
  set (new := open_vec sz (content Tab d) false).
  set (n := 2 * ca_size (cb_alloc b)).
  set (data := vec_commit (cb_data b)).
  cbn [do_ops foldl].
  change (foldl do_op (do_op d (Create Tab))) with (do_ops (do_op d (Create Tab))).
  set (d0 := do_op d (Create Tab)).
  assert (H0 : content Tab d0 = v_file new).
  { unfold d0. rewrite content_untouched by (simpl; tauto). unfold new. by rewrite open_file. }
  rewrite do_ops_app. pose proof (reserve_file Tab sz new n d0 H0) as H1.
  set (out := vec_reserve sz new n) in *.
  assert (Po : v_pending out = []).
  { unfold out. rewrite reserve_pending. apply open_pending. }
  rewrite do_ops_app. pose proof (write_file sz data (ca_t0 (cb_alloc b)) out _ H1) as H2.
  pose proof (cb_write_pending sz data (ca_t0 (cb_alloc b)) out) as P1. rewrite Po in P1.
  destruct (cb_write sz data (ca_t0 (cb_alloc b)) out) as [out1 r1]. cbn [fst] in H2, P1.
  destruct r1 as [[]| | |]; cbn [fst snd]; try (rewrite close_file by done; exact H2).
  rewrite do_ops_app.
  pose proof (write_file sz data (ca_t1 (cb_alloc b)) out1 _ H2) as H3.
  pose proof (cb_write_pending sz data (ca_t1 (cb_alloc b)) out1) as P2. rewrite P1 in P2.
  destruct (cb_write sz data (ca_t1 (cb_alloc b)) out1) as [out2 r2]. cbn [fst snd] in *.
  rewrite close_file by done.
  destruct r2; exact H3.
Qed.

(** * The list of the system calls of a build *)
Lemma write_ops_spec sz kvs data room1 room slots : 0 < sz ->
  rep sz (IVec (payload <$> kvs) true false room1) data ->
  (forall s, s ∈ slots -> full s -> N.to_nat (cv_index s) < length kvs) ->
  forall vals out, rep sz (IVec vals false false room) out ->
  write_ops sz data slots out =
    imap (fun i s => Write Tab ((length vals + i) * sz) (entry sz kvs s)) slots.
Proof.
  intros Hsz RD. induction slots as [|s slots IH]; intros Hin vals out R; [done|].
  cbn [write_ops].
  assert (G : (if is_empty (cv_index s) then Ok (replicate sz 255%N)
     else vec_get sz data (N.to_nat (cv_index s))) = Ok (entry sz kvs s) /\ length (entry sz kvs s) = sz).
  { unfold entry, is_empty. case_bool_decide as E; case_decide as F; unfold full in F.
    - done.
    - split; [done|]. apply replicate_length.
    - assert (L : N.to_nat (cv_index s) < length kvs) by (apply Hin; [left|done]).
      apply lookup_lt_is_Some_2 in L as [kv L]. rewrite L. simpl.
      assert (Hp : (payload <$> kvs) !! N.to_nat (cv_index s) = Some (payload kv)).
      { by rewrite list_lookup_fmap, L. }
      split; [by apply (get_of_rep _ _ _ _ _ Hsz RD)|].
      apply (Forall_lookup_1 _ _ _ _ (rp_vals _ _ _ RD) Hp).
    - tauto. }
  destruct G as [-> HLn].
  destruct (rep_step _ _ _ (VPush false (entry sz kvs s)) Hsz R) as [R' A]; [done|].
  cbn [vec_call fst snd] in R', A. cbn [answer iv_done iv_direct andb] in A.
  assert (Ep : push_ops Tab out false (entry sz kvs s) = [Write Tab (length vals * sz) (entry sz kvs s)]).
  { unfold push_ops. rewrite (rp_done _ _ _ R), (rp_direct _ _ _ R), (rp_pos _ _ _ R eq_refl). done. }
  rewrite Ep.
  destruct (vec_push out false (entry sz kvs s)) as [d r]. cbn [fst snd] in R', A.
  destruct r as [ptr| | |]; try done. cbn [ideal_call iv_done iv_direct orb andb iv_vals iv_room] in R'.
  rewrite (IH ltac:(intros x Hx; apply Hin; by right) _ _ R'). cbn [imap app]. rewrite Nat.add_0_r. f_equal.
  apply imap_ext. intros i x _. simpl. rewrite app_length. simpl. f_equal. lia.
Qed.

Lemma commit_ops_spec sz size hash kvs b : 0 < sz -> 0 < size -> brep sz size hash kvs b ->
  commit_ops sz b [] =
    Create Tab :: Trunc Tab (2 * size * sz) ::
    imap (fun i s => Write Tab (i * sz) (entry sz kvs s)) (ca_t0 (cb_alloc b) ++ ca_t1 (cb_alloc b)) ++
    [Unlink Tmp].
Proof.
  intros Hsz Hs [H1 [room H2] H3 H4 (sp & H5 & H6 & H7)]. unfold commit_ops. rewrite H1.
  assert (RD : rep sz (IVec (payload <$> kvs) true false room) (vec_commit (cb_data b))).
  { by apply (rep_step sz _ _ VCommit Hsz H2 I). }
  set (data := vec_commit (cb_data b)) in *.
  assert (RO : rep sz (IVec [] false false (2 * size))
     (vec_reserve sz (open_vec sz [] false) (2 * ca_size (cb_alloc b)))).
  { pose proof (rep_step sz _ _ (VReserve (2 * size)) Hsz (rep_open sz false) I) as [R _].
    cbn [vec_call fst] in R. unfold ideal_call in R. simpl in R. rewrite H4. simpl.
    rewrite decide_True in R by lia. exact R. }
  assert (Hin : forall (tb : bool) s, s ∈ (if tb then ca_t1 (cb_alloc b) else ca_t0 (cb_alloc b)) ->
     full s -> N.to_nat (cv_index s) < length kvs).
  { intros tb s Hsl Hf. assert (Hc : s ∈ contents (cb_alloc b)).
    { apply elem_of_list_filter. split; [done|]. apply elem_of_app. destruct tb; auto. }
    assert (Hq : s ∈ imap (slot_of hash) kvs) by (rewrite H7; apply elem_of_app; auto).
    apply elem_of_lookup_imap in Hq as (j & kv & -> & Hj). simpl. rewrite Nat2N.id.
    by eapply lookup_lt_Some. }
  assert (Er : reserve_ops Tab sz (open_vec sz [] false) (2 * ca_size (cb_alloc b)) = [Trunc Tab (2 * size * sz)]).
  { unfold reserve_ops. simpl v_committed. simpl v_size. rewrite H4.
    rewrite bool_decide_eq_true_2 by (split; [done|lia]). done. }
  rewrite Er. cbn [app].
  rewrite (write_ops_spec sz kvs data room (2 * size) _ Hsz RD (Hin false) [] _ RO).
  destruct (cb_write_spec sz kvs data room (2 * size) _ Hsz RD (Hin false) [] _ RO) as [A R1].
  destruct (cb_write sz data (ca_t0 (cb_alloc b)) _) as [out1 r1]. cbn [fst snd] in A, R1. subst r1.
  rewrite app_nil_l in R1.
  rewrite (write_ops_spec sz kvs data room (2 * size) _ Hsz RD (Hin true) _ _ R1).
  destruct (cb_write_spec sz kvs data room (2 * size) _ Hsz RD (Hin true) _ _ R1) as [A2 R2].
  destruct (cb_write sz data (ca_t1 (cb_alloc b)) out1) as [out2 r2]. cbn [fst snd] in A2. subst r2.
  rewrite imap_app, <- app_assoc. do 2 f_equal. f_equal. f_equal.
  apply imap_ext. intros i x _. simpl. by rewrite fmap_length.
Qed.

Lemma life_inserts sz hash kvs : forall b d cs,
  life_calls sz hash b d (inserts kvs ++ cs) =
    let r := cb_inserts hash b kvs in
    let w := (fix go b l := match l with [] => [] | kv :: l' =>
                insert_ops b kv.1 kv.2 ++ go (cb_insert hash b kv.1 kv.2).1 l' end) b kvs in
    let r' := life_calls sz hash r.1 (do_ops d w) cs in
    (r'.1.1, w ++ r'.1.2, r.2 ++ r'.2).
Proof.
  induction kvs as [|[k v] kvs IH]; intros b d cs.
  - simpl. by destruct (life_calls sz hash b d cs) as [[? ?] ?].
  - cbn [inserts fmap list_fmap app life_calls life_call fst snd cb_inserts].
    change (list_fmap _ _ (fun kv => BInsert kv.1 kv.2) kvs) with (inserts kvs).
    rewrite IH. cbn [fst snd]. rewrite do_ops_app, <- app_assoc. done.
Qed.

Definition ins_ops (hash : bytes -> N * N) : cbuilder -> list (bytes * bytes) -> list fop :=
  fix go b l := match l with [] => [] | kv :: l' =>
    insert_ops b kv.1 kv.2 ++ go (cb_insert hash b kv.1 kv.2).1 l' end.

Lemma ins_ops_on hash kvs : forall b, Forall (fun o => ~ touches Tab o) (ins_ops hash b kvs).
Proof.
  induction kvs as [|[k v] kvs IH]; intros b; cbn [ins_ops]; [constructor|].
  apply Forall_app. split; [apply insert_ops_on|apply IH].
Qed.

(** Everything about a build on a disk where both files are empty or missing. *)
Lemma life_build ksz vsz size depth max_n hash kvs d :
  0 < ksz -> 0 < size -> kv_ok ksz vsz kvs -> (N.of_nat (length kvs) <= no_index)%N ->
  content Tmp d = [] -> content Tab d = [] ->
  let sz := ksz + vsz in
  exists b, brep sz size hash kvs b /\
    b = (cb_build sz size depth max_n hash kvs).1.1 /\
    (life sz size depth max_n hash d (build kvs)).2 =
      (cb_build sz size depth max_n hash kvs).1.2 ++ [Ok tt] /\
    (life sz size depth max_n hash d (build kvs)).1.2 =
      (life_new sz size depth max_n d).2 ++ ins_ops hash (cb_new sz size depth max_n []) kvs ++
      Create Tab :: Trunc Tab (2 * size * sz) ::
      imap (fun i s => Write Tab (i * sz) (entry sz kvs s)) (ca_t0 (cb_alloc b) ++ ca_t1 (cb_alloc b)) ++
      [Unlink Tmp].
Proof.
  intros Hks Hs HK HN HT HB sz. unfold life, build. rewrite life_inserts. cbn [fst snd].
  fold (ins_ops hash).
  assert (En : (life_new (ksz + vsz) size depth max_n d).1 = cb_new (ksz + vsz) size depth max_n []).
  { unfold life_new. cbn [fst]. by rewrite HT. }
  fold sz in En. rewrite En. unfold cb_build.
  destruct (brep_inserts ksz vsz size hash kvs ltac:(lia) Hs [] _ HK HN
    (brep_new (ksz + vsz) size depth max_n hash ltac:(lia))) as [HO R]. rewrite app_nil_l in R.
  fold sz in HO, R |- *.
  set (r := cb_inserts hash (cb_new sz size depth max_n []) kvs) in *. cbn [fst snd].
  exists r.1. split; [done|]. split; [done|].
  set (d1 := do_ops (do_ops d (life_new sz size depth max_n d).2) _).
  assert (E1 : content Tab d1 = []).
  { unfold d1. rewrite content_untouched_ops by apply ins_ops_on.
    rewrite content_untouched_ops; [done|]. unfold life_new. cbn [snd]. constructor; [simpl; tauto|].
    by apply reserve_ops_on. }
  cbn [life_calls life_call fst snd]. rewrite E1. rewrite app_nil_r.
  destruct (commit_spec sz size hash kvs r.1 ltac:(unfold sz; lia) Hs R) as (A & _ & _).
  rewrite A. split; [done|].
  by rewrite (commit_ops_spec sz size hash kvs r.1 ltac:(unfold sz; lia) Hs R).
Qed.

(** * Pages of a table being written *)
Definition zero_page (sz : nat) : bytes := replicate sz 0%N.
Definition partial (sz : nat) (es : list bytes) (j : nat) : list bytes :=
  take j es ++ replicate (length es - j) (zero_page sz).

Lemma mjoin_zero sz n : mjoin (replicate n (zero_page sz)) = replicate (n * sz) 0%N.
Proof.
  induction n as [|n IH]; [done|]. cbn [replicate]. csimpl. rewrite IH. unfold zero_page.
  by rewrite <- replicate_add.
Qed.

Lemma partial_len sz es j : length (partial sz es j) = length es.
Proof. unfold partial. rewrite app_length, take_length, replicate_length. lia. Qed.
Lemma partial_sizes sz es j : Forall (fun e => length e = sz) es ->
  Forall (fun e => length e = sz) (partial sz es j).
Proof.
  intros H. apply Forall_app. split; [by apply Forall_take|]. apply Forall_replicate.
  apply replicate_length.
Qed.
Lemma partial_lookup sz es j i e : es !! i = Some e ->
  partial sz es j !! i = Some (if decide (i < j) then e else zero_page sz).
Proof.
  intros H. pose proof (lookup_lt_Some _ _ _ H). unfold partial. case_decide.
  - rewrite lookup_app_l by (rewrite take_length; lia). by rewrite lookup_take.
  - rewrite lookup_app_r by (rewrite take_length; lia). apply lookup_replicate_2. rewrite take_length. lia.
Qed.
Lemma partial_all sz es j : length es <= j -> partial sz es j = es.
Proof.
  intros H. unfold partial. rewrite take_ge by done. replace (length es - j) with 0 by lia. apply app_nil_r.
Qed.

Lemma partial_write p sz es j e d : Forall (fun e => length e = sz) es -> es !! j = Some e ->
  content p d = mjoin (partial sz es j) ->
  content p (do_op d (Write p (j * sz) e)) = mjoin (partial sz es (S j)).
Proof.
  intros HF He H. pose proof (lookup_lt_Some _ _ _ He) as Hl.
  cbn [do_op]. rewrite content_set_same. cbn [from_option]; unfold id. rewrite H. unfold partial. rewrite !mjoin_app, !mjoin_zero.
  assert (HL : j * sz = length (mjoin (take j es))).
  { rewrite (mjoin_len sz) by by apply Forall_take. rewrite take_length. lia. }
  rewrite HL, file_write_end. rewrite (take_S_r _ _ _ He), mjoin_app, mjoin_singleton, <- app_assoc. do 2 f_equal.
  rewrite drop_replicate. f_equal. rewrite (Forall_lookup_1 _ _ _ _ HF He).
  replace (length es - j) with (S (length es - S j)) by lia. rewrite Nat.mul_succ_l. apply Nat.add_sub.
Qed.

Lemma partial_writes p sz es d : forall k,
  Forall (fun e => length e = sz) es -> content p d = mjoin (partial sz es 0) ->
  content p (do_ops d (take k (imap (fun i e => Write p (i * sz) e) es))) = mjoin (partial sz es k).
Proof.
  intros k HF H0. induction k as [|k IH]; [done|].
  destruct (es !! k) as [e|] eqn:E.
  - rewrite (take_S_r _ k (Write p (k * sz) e)).
    + rewrite do_ops_app. cbn [do_ops foldl]. by apply partial_write.
    + by rewrite list_lookup_imap, E.
  - apply lookup_ge_None in E. rewrite take_ge in IH |- * by (rewrite imap_length; lia).
    rewrite IH. by rewrite !partial_all by lia.
Qed.

Lemma dies_app d a b k : dies d (a ++ b) k =
  if decide (k <= length a) then dies d a k else dies (do_ops d a) b (k - length a).
Proof.
  unfold dies. case_decide.
  - by rewrite take_app_le.
  - rewrite take_app_ge by lia. by rewrite do_ops_app.
Qed.

(** The table at the death of the process. *)
Lemma table_at_death p sz n (es : list bytes) d A B k :
  Forall (fun o => ~ touches p o) A -> Forall (fun o => ~ touches p o) B -> content p d = [] ->
  Forall (fun e => length e = sz) es -> length es = n ->
  let d' := dies d (A ++ Create p :: Trunc p (n * sz) ::
              imap (fun i e => Write p (i * sz) e) es ++ B) k in
  (k < length A + 2 /\ content p d' = []) \/
  (length A + 2 <= k /\ content p d' = mjoin (partial sz es (k - (length A + 2)))).
Proof.
  intros HA HB Hd HF HL d'. unfold d'. rewrite dies_app. case_decide as Hk.
  { left. split; [lia|]. by rewrite content_untouched_take. }
  assert (H1 : content p (do_ops d A) = []) by by rewrite content_untouched_ops.
  revert H1. generalize (do_ops d A). intros d1 H1.
  destruct (k - length A) as [|[|k']] eqn:Ek; [lia| |].
  { left. split; [lia|]. unfold dies. cbn [take do_ops foldl]. by rewrite content_untouched by (simpl; tauto). }
  right. split; [lia|]. replace (k - (length A + 2)) with k' by lia.
  unfold dies. cbn [take do_ops foldl].
  change (foldl do_op) with do_ops.
  set (d2 := do_op (do_op d1 (Create p)) (Trunc p (n * sz))).
  assert (H2 : content p d2 = mjoin (partial sz es 0)).
  { unfold d2. cbn [do_op]. rewrite !content_set_same. cbn [from_option]; unfold id. rewrite H1. unfold file_truncate.
    rewrite take_nil. cbn [app length]. unfold partial. simpl take. rewrite app_nil_l, mjoin_zero.
    f_equal. lia. }
  change (content p (dies d2 (imap (fun i e => Write p (i * sz) e) es ++ B) k') =
    mjoin (partial sz es k')).
  rewrite dies_app. case_decide as Hk2.
  { by apply partial_writes. }
  rewrite imap_length in Hk2.
  rewrite content_untouched_take by done.
  pose proof (partial_writes p sz es d2 (length es) HF H2) as H3.
  rewrite take_ge in H3 by (rewrite imap_length; lia). rewrite H3. by rewrite !partial_all by lia.
Qed.

(** * Lookups in a table being written *)
Lemma ct_get_pages sz size hash es t key : 0 < sz -> 0 < size -> length es = 2 * size ->
  (forall i e, es !! i = Some e -> vec_get sz (ct_vec t) i = Ok e) -> ct_size t = size ->
  exists e0 e1,
    es !! N.to_nat ((hash key).1 mod N.of_nat size)%N = Some e0 /\
    es !! (N.to_nat ((hash key).2 mod N.of_nat size)%N + size) = Some e1 /\
    ct_get sz hash t key =
      if match_key e0 key then Ok (drop (length key) e0)
      else if match_key e1 key then Ok (drop (length key) e1) else Throw OutOfRange.
Proof.
  intros Hsz Hs HL Hget Hts.
  assert (HLt : forall h : N, N.to_nat (h mod N.of_nat size)%N < size).
  { intros h. pose proof (N.mod_lt h (N.of_nat size)). lia. }
  destruct (lookup_lt_is_Some_2 es (N.to_nat ((hash key).1 mod N.of_nat size)%N)) as [e0 E0].
  { pose proof (HLt (hash key).1). lia. }
  destruct (lookup_lt_is_Some_2 es (N.to_nat ((hash key).2 mod N.of_nat size)%N + size)) as [e1 E1].
  { pose proof (HLt (hash key).2). lia. }
  exists e0, e1. split; [done|]. split; [done|]. unfold ct_get, ct_loc0, ct_loc1. rewrite Hts.
  rewrite bool_decide_eq_false_2 by lia. rewrite (Hget _ _ E0). cbn [rbind].
  destruct (match_key e0 key); [done|]. by rewrite (Hget _ _ E1).
Qed.

Lemma match_zero ksz sz key : length key = ksz -> ksz <= sz -> key <> zero_key ksz ->
  match_key (zero_page sz) key = false.
Proof.
  intros Hk Hle Hz. unfold match_key, zero_page. apply bool_decide_eq_false. rewrite take_replicate.
  rewrite Nat.min_l by lia. intros E. apply Hz. by rewrite <- E, Hk.
Qed.

(** What is found at some point is found, with the same value, later. *)
Lemma partial_get_mono sz size hash ksz es j j' t t' key v :
  0 < sz -> 0 < size -> ksz <= sz -> length es = 2 * size -> Forall (fun e => length e = sz) es ->
  length key = ksz -> key <> zero_key ksz -> j <= j' ->
  ct_open sz (mjoin (partial sz es j)) = Ok t -> ct_open sz (mjoin (partial sz es j')) = Ok t' ->
  ct_get sz hash t key = Ok v -> ct_get sz hash t' key = Ok v.
Proof.
  intros Hsz Hs Hle HL HF Hk Hz Hj Ht Ht' G.
  destruct (open_spec sz size (partial sz es j) Hsz Hs) as (u & Hu & Hus & Hug);
    [by rewrite partial_len|by apply partial_sizes|].
  rewrite Hu in Ht. injection Ht as <-.
  destruct (open_spec sz size (partial sz es j') Hsz Hs) as (u' & Hu' & Hus' & Hug');
    [by rewrite partial_len|by apply partial_sizes|].
  rewrite Hu' in Ht'. injection Ht' as <-.
  destruct (ct_get_pages sz size hash _ u key Hsz Hs ltac:(by rewrite partial_len) Hug Hus)
    as (e0 & e1 & E0 & E1 & Eg).
  destruct (ct_get_pages sz size hash _ u' key Hsz Hs ltac:(by rewrite partial_len) Hug' Hus')
    as (e0' & e1' & E0' & E1' & Eg').
  rewrite Eg in G. rewrite Eg'. clear Eg Eg'.
  assert (HLt : forall h : N, N.to_nat (h mod N.of_nat size)%N < size).
  { intros h. pose proof (N.mod_lt h (N.of_nat size)). lia. }
  destruct (lookup_lt_is_Some_2 es (N.to_nat ((hash key).1 mod N.of_nat size)%N)) as [f0 F0].
  { pose proof (HLt (hash key).1). lia. }
  destruct (lookup_lt_is_Some_2 es (N.to_nat ((hash key).2 mod N.of_nat size)%N + size)) as [f1 F1].
  { pose proof (HLt (hash key).2). lia. }
  rewrite (partial_lookup _ _ _ _ _ F0) in E0. rewrite (partial_lookup _ _ _ _ _ F0) in E0'.
  rewrite (partial_lookup _ _ _ _ _ F1) in E1. rewrite (partial_lookup _ _ _ _ _ F1) in E1'.
  injection E0 as <-. injection E0' as <-. injection E1 as <-. injection E1' as <-.
  pose proof (match_zero ksz sz key Hk Hle Hz) as MZ.
  pose proof (HLt (hash key).1). pose proof (HLt (hash key).2).
  destruct (decide (N.to_nat ((hash key).1 mod N.of_nat size)%N < j)) as [D0|D0].
  - rewrite (decide_True (P := _ < j')) by lia.
    destruct (match_key f0 key); [done|].
    destruct (decide (N.to_nat ((hash key).2 mod N.of_nat size)%N + size < j)) as [D1|D1].
    + rewrite (decide_True (P := _ < j')) by lia. done.
    + by rewrite MZ in G.
  - rewrite MZ in G.
    destruct (decide (N.to_nat ((hash key).2 mod N.of_nat size)%N + size < j)) as [D1|D1]; [|by rewrite MZ in G].
    exfalso. revert D0 D1 H.
    generalize (N.to_nat ((hash key).1 mod N.of_nat size)%N) (N.to_nat ((hash key).2 mod N.of_nat size)%N). lia.
Qed.

(** * A builder on what a dead process left *)
(** A builder whose value file was not empty: nothing was ever accepted. *)
Definition stale (size depth : nat) (b : cbuilder) : Prop :=
  v_committed (cb_data b) = true /\ cb_alloc b = ca_new size depth.

Lemma open_stale sz f : f <> [] -> v_committed (open_vec sz f false) = true.
Proof. intros H. unfold open_vec. rewrite bool_decide_eq_true_2; [done|]. destruct f; [done|simpl; lia]. Qed.
Lemma reserve_stale sz v n : v_committed v = true -> vec_reserve sz v n = v /\ forall p, reserve_ops p sz v n = [].
Proof.
  intros H. unfold vec_reserve, reserve_ops. rewrite H.
  rewrite bool_decide_eq_false_2 by naive_solver. done.
Qed.

Lemma new_stale sz size depth max_n d : content Tmp d <> [] ->
  stale size depth (life_new sz size depth max_n d).1.
Proof.
  intros H. pose proof (open_stale sz _ H) as Hc. unfold life_new, cb_new, stale. cbn [fst cb_data cb_alloc].
  by rewrite (proj1 (reserve_stale sz _ max_n Hc)).
Qed.

Lemma call_stale sz size depth hash b d c : stale size depth b ->
  stale size depth (life_call sz hash b d c).1.1 /\
  (forall k v, c = BInsert k v -> (life_call sz hash b d c).2 = Throw RuntimeError /\
     (life_call sz hash b d c).1.2 = [] /\
     cb_committed (life_call sz hash b d c).1.1 = cb_committed b).
Proof.
  intros [Hc Ha]. destruct c as [k v|]; cbn [life_call fst snd].
  - unfold cb_insert, insert_ops, push_ops. destruct (cb_committed b) eqn:Eb; cbn [fst snd].
    { split; [done|]. intros ? ? [= <- <-]. done. }
    unfold vec_push. rewrite Hc. cbn [fst snd]. split; [done|]. intros ? ? [= <- <-]. done.
  - split; [|done]. unfold cb_commit. destruct (cb_committed b); [done|].
    destruct (cb_write _ _ (ca_t0 _) _) as [o1 [| | |]]; done.
Qed.

Lemma calls_stale sz size depth hash cs : forall b d, stale size depth b ->
  stale size depth (life_calls sz hash b d cs).1.1 /\
  forall i k v, cs !! i = Some (BInsert k v) ->
    (life_calls sz hash b d cs).2 !! i = Some (Throw RuntimeError).
Proof.
  induction cs as [|c cs IH]; intros b d H; [done|]. cbn [life_calls fst snd].
  destruct (call_stale sz size depth hash b d c H) as [H1 H2].
  destruct (IH _ (do_ops d (life_call sz hash b d c).1.2) H1) as [H3 H4]. split; [done|].
  intros [|i] k v Hi; [|by apply (H4 i k v)]. cbn [lookup list_lookup] in Hi |- *. injection Hi as ->.
  by destruct (H2 k v eq_refl) as [-> _].
Qed.

Lemma calls_inserts_stale sz size depth hash kvs : forall b d, stale size depth b ->
  let r := life_calls sz hash b d (inserts kvs) in
  r.1.2 = [] /\ cb_committed r.1.1 = cb_committed b.
Proof.
  induction kvs as [|[k v] kvs IH]; intros b d H; [done|].
  change (inserts ((k, v) :: kvs)) with (BInsert k v :: inserts kvs). cbn [life_calls fst snd].
  destruct (call_stale sz size depth hash b d (BInsert k v) H) as [H1 H2].
  destruct (H2 k v eq_refl) as (_ & Eo & Ec).
  destruct (IH _ (do_ops d (life_call sz hash b d (BInsert k v)).1.2) H1) as [H3 H4].
  cbv zeta. rewrite H3, H4, Ec, Eo. done.
Qed.

(** * A table that is already there *)
Lemma write_ops_done sz data slots out : v_committed out = true ->
  write_ops sz data slots out = [] /\ (cb_write sz data slots out).1 = out.
Proof.
  intros H. destruct slots as [|s slots]; [done|]. cbn [write_ops cb_write].
  destruct (if is_empty (cv_index s) then _ else _) as [pl| | |]; try done.
  unfold push_ops, vec_push. by rewrite H.
Qed.

Lemma commit_ops_kept sz b f : f <> [] -> Forall (fun o => ~ touches Tab o) (commit_ops sz b f).
Proof.
  intros Hf. unfold commit_ops. destruct (cb_committed b); [constructor|].
  pose proof (open_stale sz f Hf) as Hc.
  destruct (reserve_stale sz _ (2 * ca_size (cb_alloc b)) Hc) as [-> Hr]. rewrite Hr.
  destruct (write_ops_done sz (vec_commit (cb_data b)) (ca_t0 (cb_alloc b)) _ Hc) as [-> E1].
  constructor; [simpl; tauto|]. cbn [app].
  destruct (cb_write sz _ (ca_t0 _) _) as [o1 r1]. cbn [fst] in E1. subst o1.
  destruct r1; try constructor.
  destruct (write_ops_done sz (vec_commit (cb_data b)) (ca_t1 (cb_alloc b)) _ Hc) as [-> E2].
  cbn [app]. destruct (cb_write sz _ (ca_t1 _) _) as [o2 r2].
  destruct r2; repeat constructor. simpl. auto.
Qed.

Lemma calls_kept sz hash cs : forall b d, content Tab d <> [] ->
  Forall (fun o => ~ touches Tab o) (life_calls sz hash b d cs).1.2.
Proof.
  induction cs as [|c cs IH]; intros b d H; [constructor|]. cbn [life_calls fst snd].
  assert (H1 : Forall (fun o => ~ touches Tab o) (life_call sz hash b d c).1.2).
  { destruct c as [k v|]; cbn [life_call fst snd]; [apply insert_ops_on|by apply commit_ops_kept]. }
  apply Forall_app. split; [done|]. apply IH. by rewrite content_untouched_ops.
Qed.

Lemma new_kept sz size depth max_n d :
  Forall (fun o => ~ touches Tab o) (life_new sz size depth max_n d).2.
Proof. unfold life_new. cbn [snd]. constructor; [simpl; tauto|]. by apply reserve_ops_on. Qed.

(** * An allocator where nothing was put *)
Lemma brep_stale sz size depth hash b : 0 < sz -> stale size depth b ->
  exists b', brep sz size hash [] b' /\ cb_alloc b' = cb_alloc b.
Proof.
  intros Hsz [_ Ha]. exists (cb_new sz size depth 0 []). split; [by apply brep_new|]. by rewrite Ha.
Qed.

Lemma write_empty sz data data' slots : Forall (fun s => cv_index s = no_index) slots -> forall out,
  cb_write sz data slots out = cb_write sz data' slots out /\
  write_ops sz data slots out = write_ops sz data' slots out.
Proof.
  induction 1 as [|s slots Hs _ IH]; intros out; [done|]. cbn [cb_write write_ops].
  rewrite (proj2 (is_empty_true _)) by done.
  destruct (vec_push out false (replicate sz 255%N)) as [o [| | |]]; try done.
  destruct (IH o) as [-> ->]. done.
Qed.

Lemma commit_stale sz size depth b b' f : stale size depth b -> cb_committed b = false ->
  cb_alloc b' = cb_alloc b -> cb_committed b' = false ->
  (cb_commit sz b f).1.2 = (cb_commit sz b' f).1.2 /\ (cb_commit sz b f).2 = (cb_commit sz b' f).2 /\
  commit_ops sz b f = commit_ops sz b' f.
Proof.
  intros [_ Ha] Hb Ea Hb'. unfold cb_commit, commit_ops. rewrite Hb, Hb', Ea, Ha.
  assert (HE : Forall (fun s => cv_index s = no_index) (replicate size cv_empty)).
  { by apply Forall_replicate. }
  cbn [ca_new ca_t0 ca_t1 ca_size].
  set (out := vec_reserve sz (open_vec sz f false) (2 * size)).
  destruct (write_empty sz (vec_commit (cb_data b)) (vec_commit (cb_data b')) _ HE out) as [-> ->].
  destruct (cb_write sz (vec_commit (cb_data b')) (replicate size cv_empty) out) as [o1 r1].
  destruct r1 as [[]| | |]; cbn [fst snd]; try done.
  destruct (write_empty sz (vec_commit (cb_data b)) (vec_commit (cb_data b')) _ HE o1) as [-> ->]. done.
Qed.

(** * Refused commits *)
Lemma write_refused sz data s slots out : v_committed out = true ->
  (exists pl, (if is_empty (cv_index s) then Ok (replicate sz 255%N)
     else vec_get sz data (N.to_nat (cv_index s))) = Ok pl) ->
  cb_write sz data (s :: slots) out = (out, Throw RuntimeError).
Proof. intros H [pl E]. cbn [cb_write]. rewrite E. unfold vec_push. by rewrite H. Qed.

Lemma commit_refused sz b f : f <> [] -> cb_committed b = false ->
  (forall s, ca_t0 (cb_alloc b) !! 0 = Some s ->
     exists pl, (if is_empty (cv_index s) then Ok (replicate sz 255%N)
       else vec_get sz (vec_commit (cb_data b)) (N.to_nat (cv_index s))) = Ok pl) ->
  0 < length (ca_t0 (cb_alloc b)) ->
  (cb_commit sz b f).2 = Throw RuntimeError.
Proof.
  intros Hf Hb Hs HL. unfold cb_commit. rewrite Hb.
  pose proof (open_stale sz f Hf) as Hc.
  destruct (reserve_stale sz _ (2 * ca_size (cb_alloc b)) Hc) as [-> _].
  destruct (ca_t0 (cb_alloc b)) as [|s slots]; [simpl in HL; lia|].
  rewrite (write_refused sz _ s slots _ Hc (Hs s eq_refl)). done.
Qed.

Lemma commit_refused_brep sz size hash kvs b f : 0 < sz -> 0 < size -> f <> [] -> brep sz size hash kvs b ->
  (cb_commit sz b f).2 = Throw RuntimeError.
Proof.
  intros Hsz Hs Hf [H1 [room H2] H3 H4 (sp & H5 & H6 & H7)].
  apply commit_refused; auto; [|rewrite (wf_len0 _ H3); lia].
  intros s Hs0. unfold is_empty. case_bool_decide as E; [eauto|].
  assert (RD : rep sz (IVec (payload <$> kvs) true false room) (vec_commit (cb_data b))).
  { by apply (rep_step sz _ _ VCommit Hsz H2 I). }
  assert (Hc : s ∈ contents (cb_alloc b)).
  { apply elem_of_list_filter. split; [done|]. apply elem_of_app. left. by eapply elem_of_list_lookup_2. }
  assert (Hq : s ∈ imap (slot_of hash) kvs) by (rewrite H7; apply elem_of_app; auto).
  apply elem_of_lookup_imap in Hq as (j & kv & -> & Hj). simpl. rewrite Nat2N.id.
  exists (payload kv). apply (get_of_rep _ _ _ _ _ Hsz RD); [done|]. simpl. by rewrite list_lookup_fmap, Hj.
Qed.

Lemma commit_refused_stale sz size depth b f : 0 < size -> f <> [] -> stale size depth b ->
  cb_committed b = false -> (cb_commit sz b f).2 = Throw RuntimeError.
Proof.
  intros Hs Hf [_ Ha] Hb. apply commit_refused; auto; rewrite Ha; simpl.
  - intros s E. apply lookup_replicate in E as [-> _]. by eexists.
  - rewrite replicate_length. done.
Qed.

(** * The value file is not emptied before the end *)
Lemma tmp_grows o d : (forall n, o <> Trunc Tmp n) -> o <> Unlink Tmp ->
  length (content Tmp d) <= length (content Tmp (do_op d o)).
Proof.
  intros H1 H2. destruct o as [[]|[] n|[] off bs|[]]; cbn [do_op]; try done.
  - exfalso. by apply (H1 n).
  - rewrite content_set_same. apply file_write_length.
Qed.
Lemma tmp_grows_ops os : Forall (fun o => (forall n, o <> Trunc Tmp n) /\ o <> Unlink Tmp) os -> forall d,
  length (content Tmp d) <= length (content Tmp (do_ops d os)).
Proof.
  induction 1 as [|o os [H1 H2] _ IH]; intros d; [done|]. cbn [do_ops foldl]. change (foldl do_op) with do_ops.
  etrans; [by apply (tmp_grows o d)|]. apply IH.
Qed.
Lemma ins_ops_grow hash kvs : forall b,
  Forall (fun o => (forall n, o <> Trunc Tmp n) /\ o <> Unlink Tmp) (ins_ops hash b kvs).
Proof.
  induction kvs as [|[k v] kvs IH]; intros b; cbn [ins_ops]; [constructor|].
  apply Forall_app. split; [|apply IH]. unfold insert_ops, push_ops.
  destruct (cb_committed b); [done|]. destruct (v_committed _); [done|]. destruct (_ && _); [done|].
  by repeat constructor.
Qed.

(** The value file when the process dies. *)
Lemma tmp_at_death ksz vsz size depth max_n hash kvs d k :
  0 < ksz -> 0 < size -> kv_ok ksz vsz kvs -> (N.of_nat (length kvs) <= no_index)%N -> clean d ->
  let sz := ksz + vsz in
  let ops := (life sz size depth max_n hash d (build kvs)).1.2 in
  0 < max_n -> 1 < k < length ops -> content Tmp (dies d ops k) <> [].
Proof.
  intros Hk Hs HK HN [HT HB] sz ops Hm Hkk.
  destruct (life_build ksz vsz size depth max_n hash kvs d Hk Hs HK HN HT HB) as (b & R & _ & _ & El).
  fold sz in El. unfold life_new in El. cbn [snd] in El. rewrite HT in El.
  assert (Er : reserve_ops Tmp sz (open_vec sz [] false) max_n = [Trunc Tmp (max_n * sz)]).
  { unfold reserve_ops. simpl v_committed. simpl v_size. by rewrite bool_decide_eq_true_2. }
  rewrite Er in El. fold ops in El. cbn [app] in El.
  set (mid := ins_ops hash (cb_new sz size depth max_n []) kvs ++
    Create Tab :: Trunc Tab (2 * size * sz) ::
    imap (fun i s => Write Tab (i * sz) (entry sz kvs s)) (ca_t0 (cb_alloc b) ++ ca_t1 (cb_alloc b))).
  assert (El' : ops = Create Tmp :: Trunc Tmp (max_n * sz) :: mid ++ [Unlink Tmp]).
  { rewrite El. unfold mid. by rewrite <- app_assoc. }
  assert (HM : Forall (fun o => (forall n, o <> Trunc Tmp n) /\ o <> Unlink Tmp) mid).
  { apply Forall_app. split; [apply ins_ops_grow|]. do 2 (constructor; [done|]).
    apply Forall_forall. intros o Ho. apply elem_of_lookup_imap in Ho as (i & x & -> & _). done. }
  clearbody mid. clear El. subst ops. rewrite El' in *.
  destruct k as [|[|k]]; [lia..|]. cbn [length] in Hkk. rewrite app_length in Hkk. simpl in Hkk.
  unfold dies. cbn [take do_ops foldl]. change (foldl do_op) with do_ops. rewrite take_app_le by lia.
  set (d2 := do_op (do_op d (Create Tmp)) (Trunc Tmp (max_n * sz))).
  assert (H2 : length (content Tmp d2) = max_n * sz).
  { unfold d2. cbn [do_op]. rewrite !content_set_same. cbn [from_option]; unfold id, file_truncate.
    rewrite app_length, take_length, replicate_length. lia. }
  pose proof (tmp_grows_ops (take k mid) (Forall_take _ _ _ HM) d2) as H3.
  intros E. rewrite E, H2 in H3. simpl in H3. assert (0 < sz) by (unfold sz; lia). nia.
Qed.
