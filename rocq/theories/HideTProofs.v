(** Pages of the unencrypted build, and the encrypted build as a function of them. *)
From stdpp Require Import prelude gmap.
From Coq Require Import ZArith NArith Lia.
From Verif Require Import Base GraphModel AllocModel EncModel EncProofs StoreModel StoreSpec KvModel SchemeModel SchemeSpec SchemeProofs
  PlutoModel PlutoSpec HideTSpec.
From Verif Require HideProofs.
Local Open Scope nat_scope.
Notation isb := (Forall (fun b => (b < 256)%N)).

(** ** Pages are made of bytes *)
Lemma le_bytes_isb k n : isb (le_bytes k n).
Proof. revert n. induction k as [|k IH]; intros n; cbn [le_bytes]; constructor; [|done]. by apply N.mod_lt. Qed.
Lemma le64_isb n : isb (le64 n).
Proof. with_strategy transparent [le64] apply le_bytes_isb. Qed.
Lemma wr_isb buf off bs buf' : wr buf off bs = Ok buf' -> isb buf -> isb bs -> length buf' = length buf /\ isb buf'.
Proof.
  unfold wr. case_bool_decide as Hb; [|done]. intros E H1 H2. injection E as <-. split.
  - rewrite !app_length, take_length, drop_length. lia.
  - apply Forall_app. split; [by apply Forall_take|]. apply Forall_app. split; [done|by apply Forall_drop].
Qed.
Lemma fill_isb buf from to b buf' : fill buf from to b = Ok buf' -> isb buf -> (b < 256)%N -> length buf' = length buf /\ isb buf'.
Proof.
  unfold fill. case_bool_decide; [done|]. intros E H1 H2. eapply wr_isb; [exact E|done|]. by apply Forall_replicate.
Qed.
Lemma write_values_isb sz base vs : forall buf off r, write_values sz buf base off vs = Ok r ->
  isb buf -> Forall isb vs -> length r.1 = length buf /\ isb r.1.
Proof.
  induction vs as [|v vs IH]; intros buf off r H Hb Hv; cbn [write_values] in H.
  - injection H as <-. done.
  - apply rbind_ok in H as (b' & E & H). apply Forall_cons in Hv as [Hv Hvs].
    destruct (wr_isb _ _ _ _ E Hb Hv) as [L1 B1]. destruct (IH _ _ _ H B1 Hvs) as [L2 B2]. split; [lia|done].
Qed.
Lemma sublist_isb vs o n l : sublist_of vs o n = Ok l -> Forall isb vs -> Forall isb l.
Proof.
  unfold sublist_of. case_bool_decide; [|done]. destruct o; intros E Hv; injection E as <-; [by apply Forall_take|by apply Forall_drop].
Qed.
Lemma encode_isb p buf base key values ai r : encode p buf base key values ai = Ok r ->
  isb buf -> isb key -> Forall isb values -> length r.1 = length buf /\ isb r.1.
Proof.
  unfold encode. case_bool_decide as Hc; [by intros E; injection E as <-|]. intros H Hb Hk Hv.
  apply rbind_ok in H as (sub & E1 & H). apply sublist_isb in E1; [|done].
  apply rbind_ok in H as (b1 & E2 & H). apply wr_isb in E2 as [L2 B2]; [|done|apply le64_isb].
  apply rbind_ok in H as (s2 & E3 & H).
  assert (length s2.1 = length buf /\ isb s2.1) as [L3 B3].
  { clear H. case_bool_decide; [apply rbind_ok in E3 as (b & E3 & E3')|]; [|injection E3 as <-; by split].
    injection E3' as <-. apply fill_isb in E3 as [L3 B3]; [|done|done]. cbn. split; [lia|done]. }
  apply rbind_ok in H as (b3 & E4 & H). apply wr_isb in E4 as [L4 B4]; [|done|done].
  apply rbind_ok in H as (s4 & E5 & H).
  assert (length s4.1 = length buf /\ isb s4.1) as [L5 B5].
  { clear H. case_bool_decide; [apply rbind_ok in E5 as (b & E5 & E5')|]; [|injection E5 as <-; cbn; split; [lia|done]].
    injection E5' as <-. apply fill_isb in E5 as [L5 B5]; [|done|done]. cbn. split; [lia|done]. }
  apply write_values_isb in H as [L6 B6]; [|done|done]. split; [lia|done].
Qed.

Definition data_isb (data : list (bytes * list bytes)) : Prop := Forall (fun d => isb d.1 /\ Forall isb d.2) data.
Lemma encode_edges_isb p data es o : data_isb data -> forall l buf wrt r, encode_edges p data es o l buf wrt = Ok r ->
  isb buf -> length r.1 = length buf /\ isb r.1.
Proof.
  intros Hd. induction l as [|q l IH]; intros buf wrt r H Hb; cbn [encode_edges] in H; [by injection H as <-|].
  apply rbind_ok in H as (e & _ & H). destruct (e_val e) as [i|]; [|by eapply IH].
  apply rbind_ok in H as (d & Ed & H). apply rbind_ok in H as (x & Ex & H). case_bool_decide; [done|].
  apply vat_ok in Ed. assert (isb d.1 /\ Forall isb d.2) as [Hk Hv] by (by apply (Forall_lookup_1 _ _ _ _ Hd Ed)).
  apply encode_isb in Ex as [L1 B1]; [|done|done|done]. destruct (IH _ _ _ H B1) as [L2 B2]. split; [lia|done].
Qed.
Lemma build_page_isb enc n hash data es i v r : data_isb data ->
  build_page (SPar enc n hash Plain) data es i v = Ok r -> length r.1 = kp_page enc /\ isb r.1.
Proof.
  intros Hd H. unfold build_page in H. cbn [sp_enc finish_with sp_cipher] in H.
  apply rbind_ok in H as (r1 & E1 & H). apply encode_edges_isb in E1 as [L1 B1]; [|done|by apply Forall_replicate].
  rewrite replicate_length in L1.
  apply rbind_ok in H as (r2 & E2 & H). apply encode_edges_isb in E2 as [L2 B2]; [|done|done].
  apply rbind_ok in H as (f & E3 & H). apply rbind_ok in E3 as (x & E3 & E4). injection E4 as <-. cbn [fst snd] in H.
  case_bool_decide; [done|]. injection H as <-. cbn [fst]. unfold finish_block in E3.
  case_bool_decide; [injection E3 as <-; cbn; split; [lia|done]|].
  apply rbind_ok in E3 as (b & E3 & E5). injection E5 as <-. apply wr_isb in E3 as [L3 B3]; [|done|by apply Forall_replicate].
  cbn. split; [lia|done].
Qed.
Definition page_isb (enc : eparams) (p : bytes) : Prop := length p = kp_page enc /\ isb p.
Lemma build_pages_isb enc n hash data g : data_isb data -> forall l t u r,
  build_pages (SPar enc n hash Plain) data g l t u = Ok r -> Forall (page_isb enc) t ->
  Forall (page_isb enc) r.1 /\ length r.1 = length t + length l.
Proof.
  intros Hd. induction l as [|i l IH]; intros t u r H Ht; cbn [build_pages] in H; [injection H as <-; cbn; split; [done|lia]|].
  apply rbind_ok in H as (v & _ & H). apply rbind_ok in H as (p & Ep & H). case_bool_decide; [|done].
  apply build_page_isb in Ep; [|done]. apply IH in H as [H1 H2]; [|apply Forall_app; split; [done|]; constructor; [done|constructor]].
  rewrite app_length in H2. cbn [length] in *. split; [done|lia].
Qed.

(** ** The encrypted build *)
Section cipher.
  Context (enc : eparams) (n : nat) (hash : bytes -> N * N) (ks : keystream) (k : bytes).
  Let pl := SPar enc n hash Plain.
  Let en := SPar enc n hash (Encrypted ks k).
  Definition masked (t : list bytes) : list bytes := imap (fun i p => xor_bytes (ks k (nonce_of i) (kp_page enc)) p) t.

  Lemma build_page_eq data es i v : build_page en data es i v =
    (r <~ build_page pl data es i v; Ok (xor_bytes (ks k (nonce_of i) (kp_page enc)) r.1, [nonce_of i])).
  Proof.
    unfold build_page. cbn [sp_enc en pl]. destruct (encode_edges _ _ _ Incoming _ _ _) as [r1| | |]; [|done..]. cbn [rbind].
    destruct (encode_edges _ _ _ Outgoing _ _ _) as [r2| | |]; [|done..]. cbn [rbind].
    unfold finish_with, enc_finish_block. cbn [sp_cipher sp_enc en pl].
    destruct (finish_block r2.1 r2.2 (kp_page enc - r2.2)) as [x| | |] eqn:E; [|done..]. cbn [rbind fst snd].
    assert (r2.2 + (kp_page enc - r2.2) = r2.2 + x.2) as ->; [|by case_bool_decide].
    unfold finish_block in E. case_bool_decide; [injection E as <-; cbn; lia|].
    apply rbind_ok in E as (b & _ & E). injection E as <-. cbn. lia.
  Qed.
  Lemma build_pages_eq data g : forall l t u, build_pages en data g l (masked t) u =
    (r <~ build_pages pl data g l t []; Ok (masked r.1, u ++ (nonce_of <$> l))).
  Proof.
    induction l as [|i l IH]; intros t u; cbn [build_pages]; [cbn; by rewrite app_nil_r|].
    destruct (vat (g_verts g) i) as [v| | |]; [|done..]. cbn [rbind]. rewrite build_page_eq.
    destruct (build_page pl data (g_edges g) i v) as [p| | |] eqn:Ep; [|done..]. cbn [rbind fst snd].
    assert (length (masked t) = length t) as -> by (apply imap_length). case_bool_decide as E; [|done].
    assert (p.2 = []) as Hp.
    { unfold build_page in Ep. apply rbind_ok in Ep as (? & _ & Ep). apply rbind_ok in Ep as (? & _ & Ep).
      apply rbind_ok in Ep as (f & E3 & Ep). cbn [finish_with sp_cipher pl] in E3.
      apply rbind_ok in E3 as (? & _ & E3). injection E3 as <-. case_bool_decide; [done|]. by injection Ep as <-. }
    rewrite Hp. cbn [app].
    assert (masked t ++ [xor_bytes (ks k (nonce_of i) (kp_page enc)) p.1] = masked (t ++ [p.1])) as ->.
    { unfold masked. rewrite imap_app. f_equal. cbn. by rewrite E, Nat.add_0_r. }
    rewrite IH. destruct (build_pages pl data g l (t ++ [p.1]) []) as [r| | |]; [|done..]. cbn. by rewrite <- (assoc_L (++)).
  Qed.
  (** The result of the build, from the unencrypted one. *)
  Definition masked_files (f : sfiles) : sfiles := SFiles (masked (sf_table f)) (sf_stash f) (nonce_of <$> seq 0 n).
  Lemma write_files_eq data a : write_files en data a = (f <~ write_files pl data a; Ok (masked_files f)).
  Proof.
    unfold write_files. destruct (get_allocation_graph a) as [g| | |]; [|done..]. cbn [rbind sp_n en pl].
    pose proof (build_pages_eq data g (seq 0 n) [] []) as E. cbn [masked imap] in E. unfold masked in E at 1. cbn [imap] in E.
    rewrite E. clear E. destruct (build_pages pl data g (seq 0 n) [] []) as [t| | |]; [|done..]. cbn [rbind].
    destruct (get_stashed_edges a) as [s| | |]; [|done..]. cbn [rbind sp_enc en pl].
    case_bool_decide; [|done]. by destruct (build_stash enc data (g_edges g) s).
  Qed.
  Lemma store_build_eq fuel b : (store_build fuel en b).2 = (f <~ (store_build fuel pl b).2; Ok (masked_files f)) /\
    (store_build fuel en b).1 = (store_build fuel pl b).1.
  Proof.
    unfold store_build. destruct (sb_built b); [done|]. destruct (allocate fuel (sb_alloc b)) as [a| | |]; [|done..].
    rewrite write_files_eq. by destruct (write_files pl (sb_data b) a).
  Qed.
End cipher.

Lemma store_build_isb fuel enc n hash b f : data_isb (sb_data b) -> (store_build fuel (SPar enc n hash Plain) b).2 = Ok f ->
  Forall (page_isb enc) (sf_table f) /\ length (sf_table f) = n.
Proof.
  intros Hd H. unfold store_build in H. destruct (sb_built b); [done|]. destruct (allocate fuel (sb_alloc b)) as [a| | |]; [|done..].
  destruct (write_files _ (sb_data b) a) as [f'| | |] eqn:W; [|done..]. injection H as ->.
  unfold write_files in W. apply rbind_ok in W as (g & _ & W). apply rbind_ok in W as (t & Et & W). cbn [sp_n] in Et.
  apply build_pages_isb in Et as [H1 H2]; [|done|constructor]. rewrite seq_length in H2. cbn in H2.
  apply rbind_ok in W as (s & _ & W). case_bool_decide; [apply rbind_ok in W as (? & _ & W)|]; by injection W as <-.
Qed.

(** Insertions ignore the cipher. *)
Section insert.
  Context (enc : eparams) (n : nat) (hash : bytes -> N * N) (c1 c2 : cipher).
  Lemma store_insert_eq b key vals : store_insert (SPar enc n hash c1) b key vals = store_insert (SPar enc n hash c2) b key vals.
  Proof. done. Qed.
  Context (prf h : bytes -> bytes).
  Lemma insert_blocks_eq token : forall ids b bc block, insert_blocks (Scheme (SPar enc n hash c1) prf h) token b bc block ids =
    insert_blocks (Scheme (SPar enc n hash c2) prf h) token b bc block ids.
  Proof.
    induction ids as [|id ids IH]; intros b bc block; [done|]. cbn [insert_blocks]. cbn [sc_store sp_enc].
    case_bool_decide; [|apply IH].
    change (store_insert (SPar enc n hash c1) b (derive_core_key (Scheme (SPar enc n hash c1) prf h) token bc) (block ++ [le64 id])) with
      (store_insert (SPar enc n hash c2) b (derive_core_key (Scheme (SPar enc n hash c2) prf h) token bc) (block ++ [le64 id])).
    destruct (store_insert _ _ _ _) as [b' [| | |]]; try done. cbn [fst snd]. apply IH.
  Qed.
  Lemma insert_db_eq : forall db b, insert_db (Scheme (SPar enc n hash c1) prf h) b db = insert_db (Scheme (SPar enc n hash c2) prf h) b db.
  Proof.
    assert (forall b w ids, tethys_insert (Scheme (SPar enc n hash c1) prf h) b w ids = tethys_insert (Scheme (SPar enc n hash c2) prf h) b w ids) as H.
    { intros b w ids. unfold tethys_insert. by rewrite insert_blocks_eq. }
    induction db as [|x db IH]; intros b; [done|]. cbn [insert_db]. by rewrite H, IH.
  Qed.
End insert.

(** The data of the builder is made of bytes. *)
Lemma store_insert_isb sp b key vals : data_isb (sb_data b) -> isb key -> Forall isb vals -> data_isb (sb_data (store_insert sp b key vals).1).
Proof.
  intros Hd Hk Hv. unfold store_insert. destruct (sb_built b); [done|].
  assert (data_isb (sb_data b ++ [(key, vals)])) by (apply Forall_app; split; [done|]; constructor; [done|constructor]).
  by destruct (h <~ _; _).
Qed.
Lemma insert_blocks_isb sc token : (forall x, isb (sc_hash sc x)) -> forall ids b bc block, data_isb (sb_data b) -> Forall isb block ->
  data_isb (sb_data (insert_blocks sc token b bc block ids).1) /\
  (forall r, (insert_blocks sc token b bc block ids).2 = Ok r -> Forall isb r.2).
Proof.
  intros Hh. induction ids as [|id ids IH]; intros b bc block Hd Hb; cbn [insert_blocks].
  - split; [done|]. intros r E. by injection E as <-.
  - assert (Forall isb (block ++ [le64 id])) as Hb' by (apply Forall_app; split; [done|]; constructor; [apply le64_isb|constructor]).
    case_bool_decide; [|by apply IH].
    pose proof (store_insert_isb (sc_store sc) b (derive_core_key sc token bc) (block ++ [le64 id]) Hd (Hh _) Hb') as Hs.
    destruct (store_insert _ _ _ _) as [b' [[]| | |]]; cbn [fst snd] in *; [by apply IH; [|constructor]|by split..].
Qed.
Lemma insert_db_isb sc : (forall x, isb (sc_hash sc x)) -> forall db b, data_isb (sb_data (tb_store b)) ->
  data_isb (sb_data (tb_store (insert_db sc b db).1)).
Proof.
  intros Hh. induction db as [|[w ids] db IH]; intros b Hd; [done|]. cbn [insert_db fst snd]. apply IH.
  unfold tethys_insert. destruct (insert_blocks_isb sc (sc_prf sc w) Hh ids (tb_store b) 0 [] Hd ltac:(constructor)) as [H1 H2].
  destruct (insert_blocks sc (sc_prf sc w) (tb_store b) 0 [] ids) as [b1 [[bc bl]| | |]]; cbn [fst snd] in *; [|done..].
  specialize (H2 _ eq_refl). cbn in H2.
  pose proof (store_insert_isb (sc_store sc) b1 (derive_core_key sc (sc_prf sc w) bc) bl H1 (Hh _) H2) as Hs.
  destruct (store_insert _ _ _ _) as [b' [[]| | |]]; done.
Qed.
