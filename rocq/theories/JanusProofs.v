(** Proofs about Janus. *)
From stdpp Require Import prelude gmap.
From Coq Require Import NArith Lia.
From Verif Require Import Base EncModel EncProofs KvModel UtilsModel Props_Utils DianaModel DianaSpec DianaProofs
  Props_Diana JanusModel JanusSpec.
Local Arguments N.of_nat : simpl never.
Local Arguments N.modulo : simpl never.
Local Arguments N.pow : simpl never.
Local Arguments N.to_nat : simpl never.

(** ** The list store *)
Definition cached_ok (ts : nat) (x : cached) : Prop := (x.1 < 2 ^ 64)%N /\ length x.2 = ts.

Lemma deser_ser ts (x : cached) (rest : bytes) : 8 <= ts -> cached_ok ts x ->
  deser_cached ts (ser_cached x ++ rest) = Ok (Some (x, rest)).
Proof.
  intros Hts [Hx Hl]. unfold deser_cached, ser_cached.
  assert (Hlen : length ((le64 x.1 ++ x.2) ++ rest) = 8 + ts + length rest).
  { rewrite !app_length, le64_length, Hl. lia. }
  rewrite Hlen. destruct (Nat.ltb_spec (8 + ts + length rest) (8 + 8)); [lia|].
  destruct (Nat.ltb_spec (8 + ts + length rest) (8 + ts)); [lia|].
  rewrite <- app_assoc, (take_app_alt (le64 x.1)) by by rewrite le64_length.
  rewrite (drop_app_alt (le64 x.1) _ 8) by by rewrite le64_length.
  rewrite take_app_alt by done. rewrite le64_val by done. rewrite app_assoc, drop_app_alt.
  - by destruct x.
  - rewrite app_length, le64_length. lia.
Qed.

Lemma deser_loop_ser ts (data : list cached) : 8 <= ts -> Forall (cached_ok ts) data -> forall fuel,
  length data < fuel -> deser_loop ts fuel (data ≫= ser_cached) = Ok data.
Proof.
  intros Hts. induction data as [|x data IH]; intros Hok fuel Hf; (destruct fuel as [|fuel]; [simpl in Hf; lia|]).
  - done.
  - apply Forall_cons in Hok as [Hx Hok]. rewrite bind_cons. cbn [deser_loop]. rewrite deser_ser by done.
    cbn [rbind]. rewrite IH; [done|done|simpl in Hf; lia].
Qed.

Lemma ser_length ts (data : list cached) : 8 <= ts -> Forall (cached_ok ts) data -> length data <= length (data ≫= ser_cached).
Proof.
  intros Hts. induction 1 as [|x data [Hx Hl] _ IH]; [done|]. rewrite bind_cons, app_length. simpl.
  unfold ser_cached at 1. rewrite app_length, le64_length. lia.
Qed.

Lemma list_get_put ts db key (data : list cached) : 8 <= ts -> Forall (cached_ok ts) data ->
  list_get ts (list_put db key data) key = Ok data.
Proof.
  intros Hts Hok. unfold list_get, list_put. rewrite lookup_insert. apply deser_loop_ser; [done|done|].
  pose proof (ser_length ts data Hts Hok). lia.
Qed.
Lemma list_get_put_ne ts db key key' (data : list cached) : key <> key' ->
  list_get ts (list_put db key data) key' = list_get ts db key'.
Proof. intros H. unfold list_get, list_put. by rewrite lookup_insert_ne. Qed.

(** ** The two searches of the server *)
Section server.
  Variable S : janus.

  Definition new_shares (s : j_server) (req : j_search S) : list bytes := omap id (request_docs (js_del s) (jr_del req)).
  Definition new_cts (s : j_server) (req : j_search S) : list bytes := omap id (request_docs (js_ins s) (jr_ins req)).
  Definition old_part (s : j_server) (req : j_search S) (l : list cached) : list cached :=
    j_filter_cache S (new_shares s req) l.
  Definition new_part (s : j_server) (req : j_search S) : list cached :=
    j_decrypt S (jr_share req :: new_shares s req) (new_cts s req).

  Lemma search_seq_eq s (req : j_search S) l :
    well_formed (jr_ins req) -> well_formed (jr_del req) ->
    NoDup (request_tokens (jr_ins req)) -> NoDup (request_tokens (jr_del req)) ->
    list_get (jn_tagsize S) (js_cache s) (jr_token req) = Ok l ->
    j_server_search S s req =
      Ok (JServer (without (request_tokens (jr_ins req)) (js_ins s)) (without (request_tokens (jr_del req)) (js_del s))
            (list_put (js_cache s) (jr_token req) (old_part s req l ++ new_part s req)),
          (old_part s req l ++ new_part s req).*1).
  Proof.
    intros Hwi Hwd Hni Hnd Hl. unfold j_server_search.
    rewrite (search_list_eq _ _ (jr_ins req)) by done. cbn [rbind].
    rewrite (search_list_eq _ _ (jr_del req)) by done. cbn [rbind]. rewrite Hl. done.
  Qed.

  Lemma par_list_eq n (old new : list cached) : (0 < n)%N ->
    j_par_list n (((fun x : cached => (x.1, n)) <$> old) ++ ((fun x : cached => (x.1, 0%N)) <$> new)) = new.*1 ++ old.*1.
  Proof.
    intros Hn. unfold j_par_list.
    replace (N.to_nat (n + 1)) with (Datatypes.S (Datatypes.S (N.to_nat (n - 1)))) by lia.
    rewrite seq_S, fmap_app, bind_app. cbn [seq]. rewrite fmap_cons, bind_cons.
    assert (Hsame : forall m (l : list cached), fst <$> filter (fun x : N * N => x.2 = m) ((fun x : cached => (x.1, m)) <$> l) = l.*1).
    { intros m l. induction l as [|x l IH]; [done|]. rewrite fmap_cons, filter_cons_True by done. rewrite !fmap_cons. by rewrite IH. }
    assert (Hother : forall m m' (l : list cached), m <> m' -> filter (fun x : N * N => x.2 = m) ((fun x : cached => (x.1, m')) <$> l) = []).
    { intros m m' l Hm. induction l as [|x l IH]; [done|]. rewrite fmap_cons, filter_cons_False by (simpl; congruence). done. }
    change (N.of_nat 0) with 0%N. rewrite filter_app, fmap_app. rewrite (Hother 0%N n old) by lia.
    rewrite (Hsame 0%N new). rewrite fmap_nil, app_nil_l, fmap_cons, bind_cons, fmap_nil, filter_app, fmap_app.
    replace (N.of_nat (0 + Datatypes.S (N.to_nat (n - 1)))) with n by lia.
    rewrite (Hsame n old), (Hother n 0%N new) by lia.
    assert (Hmid : ((N.of_nat <$> seq 1 (N.to_nat (n - 1))) ≫= fun t => fst <$> filter (fun x : N * N => x.2 = t)
       (((fun x : cached => (x.1, n)) <$> old) ++ ((fun x : cached => (x.1, 0%N)) <$> new))) = []).
    { assert (Hall : Forall (fun t : N => t <> n /\ t <> 0%N) (N.of_nat <$> seq 1 (N.to_nat (n - 1)))).
      { apply Forall_forall. intros t Ht. apply elem_of_list_fmap in Ht as (i & -> & Hi). apply elem_of_seq in Hi. lia. }
      induction Hall as [|t ts [H1 H2] _ IH]; [done|]. rewrite bind_cons, IH, filter_app, !Hother by done. done. }
    rewrite Hmid. simpl. by rewrite !app_nil_r.
  Qed.

  Lemma search_par_eq s (req : j_search S) l n : (0 < n < 256)%N ->
    well_formed (jr_ins req) -> well_formed (jr_del req) -> NoDup (request_tokens (jr_del req)) ->
    list_get (jn_tagsize S) (js_cache s) (jr_token req) = Ok l ->
    exists f0, j_par_start S s req n = Ok f0 /\
      forall f, rtc (d_step (jn_del S) true) f0 f -> d_finished f ->
        exists calls, j_par_finish S s req n f =
          Ok (JServer (js_ins s) (without (request_tokens (jr_del req)) (js_del s))
                (list_put (js_cache s) (jr_token req) (new_part s req ++ old_part s req l)), calls) /\
          calls = ((fun x : cached => (x.1, n)) <$> old_part s req l) ++ ((fun x : cached => (x.1, 0%N)) <$> new_part s req) /\
          j_par_list n calls = (new_part s req ++ old_part s req l).*1 /\
          j_par_callback calls = (old_part s req l ++ new_part s req).*1.
  Proof.
    intros Hn Hwi Hwd Hnd Hl.
    destruct (C38_search_parallel (jn_del S) (js_del s) (jr_del req) n true Hwd Hn ltac:(done)) as (f0 & Hf0 & _ & Hf).
    exists f0. split; [exact Hf0|]. intros f Hr Hfin. destruct (Hf f Hr Hfin) as (E & El & _).
    rewrite search_list_eq in E by done. injection E as Edb Eres.
    unfold j_par_finish. rewrite Hl. cbn [rbind]. rewrite (search_eq _ _ (jr_ins req)) by done. cbn [rbind fst snd].
    rewrite El, <- Edb. eexists. split; [done|]. split; [done|]. split.
    - rewrite fmap_app. apply par_list_eq. lia.
    - unfold j_par_callback. rewrite !fmap_app. f_equal; rewrite <- list_fmap_compose; done.
  Qed.
End server.

(** ** Instances of Diana on meta-keywords *)
Section meta.
  Variable D : diana.
  Hypothesis Hd : d_crypto_ok D.

  (** [cnt kw e] insertions for keyword [kw] in epoch [e]. *)
  Record ms (g : slots) (cnt : bytes -> N -> nat) : Prop := {
    ms_len : forall kw e, (e < 2 ^ 32)%N -> length (g (meta_keyword kw e)) = cnt kw e;
    ms_dom : forall m, g m <> [] -> exists kw e, (e < 2 ^ 32)%N /\ m = meta_keyword kw e }.
  Definition col (cnt : bytes -> N -> nat) : Prop := forall kw e i kw' e' i',
    i < cnt kw e -> i' < cnt kw' e' ->
    d_update_token D (meta_keyword kw e) i = d_update_token D (meta_keyword kw' e') i' -> kw = kw' /\ e = e' /\ i = i'.
  Definition cfew (cnt : bytes -> N -> nat) : Prop := forall kw e, (N.of_nat (cnt kw e) < 2 ^ 32)%N.

  Lemma ms_col g cnt : ms g cnt -> col cnt -> d_no_collision D g.
  Proof.
    intros [Hl Hdm] Hc m i m' i' Hi Hi' E.
    destruct (Hdm m) as (kw & e & He & ->); [intros En; rewrite En in Hi; simpl in Hi; lia|].
    destruct (Hdm m') as (kw' & e' & He' & ->); [intros En; rewrite En in Hi'; simpl in Hi'; lia|].
    rewrite Hl in Hi, Hi' by done. destruct (Hc kw e i kw' e' i' Hi Hi' E) as (-> & -> & ->). done.
  Qed.
  Lemma ms_few g cnt : ms g cnt -> cfew cnt -> d_few g.
  Proof.
    intros [Hl Hdm] Hc m. destruct (g m) as [|o l] eqn:E; [simpl; lia|].
    destruct (Hdm m) as (kw & e & He & ->); [by rewrite E|]. rewrite <- E, Hl by done. apply Hc.
  Qed.
  Lemma ms_ext g cnt cnt' : (forall kw e, cnt kw e = cnt' kw e) -> ms g cnt -> ms g cnt'.
  Proof. intros H [Hl Hdm]. split; [|done]. intros kw e He. by rewrite <- H, Hl. Qed.
  Lemma ms_add g cnt kw e doc d : (e < 2 ^ 32)%N -> ms g cnt ->
    ms (add_slot g (meta_keyword kw e) doc d)
       (fun k e' => if decide (k = kw /\ e' = e) then Datatypes.S (cnt k e') else cnt k e').
  Proof.
    intros He [Hl Hdm]. split.
    - intros k e' He'. unfold add_slot. case_decide as Hm.
      + apply C45_meta_keyword_injective in Hm as [-> ->]; [|done|done].
        rewrite app_length, Hl, decide_True by done. simpl. lia.
      + rewrite Hl by done. rewrite decide_False; [done|]. by intros [-> ->].
    - intros m. unfold add_slot. case_decide; [|apply Hdm]. intros _. eauto.
  Qed.
  Lemma ms_empty g cnt m : ms g cnt -> ms (empty_slots g m) cnt.
  Proof.
    intros [Hl Hdm]. split.
    - intros k e He. unfold empty_slots. case_decide; rewrite ?fmap_length; by apply Hl.
    - intros m'. unfold empty_slots. case_decide; [|apply Hdm]. intros Hn. apply Hdm. intros E. by rewrite E in Hn.
  Qed.

  Lemma insertion_eq g cnt c c0 db kw e doc :
    let cnt' := fun k e' => if decide (k = kw /\ e' = e) then Datatypes.S (cnt k e') else cnt k e' in
    let m := meta_keyword kw e in
    (e < 2 ^ 32)%N -> ms g cnt -> col cnt' -> cfew cnt' -> length doc = d_len D ->
    d_inv D g c0 db -> c !! m = c0 !! m ->
    exists v u, d_insertion_request D c m doc = (<[m := v]> c, u) /\
      d_inv D (add_slot g m doc true) (<[m := v]> c0) (d_insert db u).
  Proof.
    intros cnt' m He Hms Hcol Hfew Hdoc I Hc.
    destruct (d_inv_add D g c0 db m doc true) as [E I'].
    - apply (ms_col _ cnt'); [|done]. by apply ms_add.
    - apply (ms_few _ cnt'); [|done]. by apply ms_add.
    - done.
    - done.
    - unfold d_insertion_request, ctr_get_and_increment in *. rewrite Hc. injection E as Ev.
      exists (N.of_nat (length (g m))), (d_make_update D m (N.of_nat (length (g m))) doc).
      assert (En : next_value (c0 !! m) = N.of_nat (length (g m))).
      { pose proof (f_equal (fun f : counters => f !! m) Ev) as Em. rewrite !lookup_insert in Em. congruence. }
      rewrite En. done.
  Qed.
  Lemma search_request_agree (c c0 : counters) m : c !! m = c0 !! m -> d_search_request D c m = d_search_request D c0 m.
  Proof. intros E. unfold d_search_request, ctr_get. by rewrite E. Qed.
  Lemma search_request_count g c db m : d_few g -> d_inv D g c db -> ds_count (d_search_request D c m) = N.of_nat (length (g m)).
  Proof.
    intros Hfew I. specialize (Hfew m). unfold d_search_request, ctr_get. rewrite (di_ctr _ _ _ _ I).
    destruct (length (g m)) as [|n]; [done|]. cbn [ds_count]. rewrite N.mod_small by lia. lia.
  Qed.
End meta.

(** ** Histories *)
Definition hle (h h' : j_hist) : Prop :=
  (forall kw, (jh_epoch h kw <= jh_epoch h' kw)%N) /\
  (forall kw e, jh_ins h kw e <= jh_ins h' kw e) /\ (forall kw e, length (jh_rem h kw e) <= length (jh_rem h' kw e)).
Lemma hle_refl h : hle h h.
Proof. split_and!; intros; lia. Qed.
Lemma hle_trans h1 h2 h3 : hle h1 h2 -> hle h2 h3 -> hle h1 h3.
Proof. intros (A & B & C) (A' & B' & C'). split_and!; intros; etrans; eauto. Qed.
Lemma hle_step h o : hle h (j_hist_step h o).
Proof.
  assert (Hs : forall kw, hle h (if decide (quiet h kw) then h
      else JHist (fun k => if decide (k = kw) then (jh_epoch h k + 1)%N else jh_epoch h k) (jh_ins h) (jh_rem h))).
  { intros kw. case_decide; [apply hle_refl|]. split_and!; simpl; intros; try case_decide; lia. }
  destruct o as [kw i|kw i|kw|kw n|kw]; simpl; try apply Hs.
  - split_and!; simpl; intros; try case_decide; lia.
  - split_and!; simpl; intros; try case_decide; rewrite ?app_length; lia.
Qed.
Lemma hle_steps ops : forall h, hle h (foldl j_hist_step h ops).
Proof.
  induction ops as [|o ops IH]; intros h; simpl; [apply hle_refl|]. eapply hle_trans; [apply (hle_step h o)|apply IH].
Qed.

Definition few_h (h : j_hist) : Prop :=
  (forall kw, (jh_epoch h kw < 2 ^ 32)%N) /\ cfew (jh_ins h) /\ cfew (fun kw e => length (jh_rem h kw e)).
Lemma few_h_mono h h' : hle h h' -> few_h h' -> few_h h.
Proof.
  intros (A & B & C) (A' & B' & C'). split_and!.
  - intros kw. specialize (A kw). specialize (A' kw). lia.
  - intros kw e. specialize (B kw e). specialize (B' kw e). lia.
  - intros kw e. specialize (C kw e). specialize (C' kw e). simpl in C'. lia.
Qed.
Definition small_h (k : nat) (h : j_hist) : Prop :=
  (forall kw, (jh_epoch h kw <= N.of_nat k)%N) /\ (forall kw e, jh_ins h kw e <= k) /\ (forall kw e, length (jh_rem h kw e) <= k).
Lemma small_step k h o : small_h k h -> small_h (Datatypes.S k) (j_hist_step h o).
Proof.
  intros (A & B & C).
  assert (A' : forall kw, (jh_epoch h kw <= N.of_nat (Datatypes.S k))%N) by (intros kw; specialize (A kw); lia).
  assert (B' : forall kw e, jh_ins h kw e <= Datatypes.S k) by (intros kw e; specialize (B kw e); lia).
  assert (C' : forall kw e, length (jh_rem h kw e) <= Datatypes.S k) by (intros kw e; specialize (C kw e); lia).
  assert (Hs : forall kw, small_h (Datatypes.S k) (if decide (quiet h kw) then h
      else JHist (fun k => if decide (k = kw) then (jh_epoch h k + 1)%N else jh_epoch h k) (jh_ins h) (jh_rem h))).
  { intros kw. case_decide; [done|]. split_and!; simpl; [|done|done]. intros k'. specialize (A k'). case_decide; lia. }
  destruct o as [kw i|kw i|kw|kw n|kw]; simpl; try apply Hs.
  - split_and!; simpl; [done| |done]. intros k' e. specialize (B k' e). case_decide; lia.
  - split_and!; simpl; [done|done|]. intros k' e. specialize (C k' e). case_decide; rewrite ?app_length; simpl; lia.
Qed.
Lemma small_steps ops : forall k h, small_h k h -> small_h (k + length ops) (foldl j_hist_step h ops).
Proof.
  induction ops as [|o ops IH]; intros k h H; simpl; [by rewrite Nat.add_0_r|].
  rewrite <- Nat.add_succ_comm. apply IH. by apply small_step.
Qed.
Lemma few_start ops : (N.of_nat (length ops) < 2 ^ 32)%N -> few_h (foldl j_hist_step j_hist0 ops).
Proof.
  intros Hn. destruct (small_steps ops 0 j_hist0) as (A & B & C).
  { split_and!; intros; simpl; lia. }
  simpl in A, B, C. split_and!.
  - intros kw. specialize (A kw). lia.
  - intros kw e. specialize (B kw e). lia.
  - intros kw e. specialize (C kw e). lia.
Qed.

Section history.
  Variable S : janus.
  Hypothesis Hk : j_crypto_ok S.
  Variable KW : bytes -> Prop.
  Variable DOC : bytes -> N -> Prop.
  Hypothesis Htag : forall kw i i', DOC kw i -> DOC kw i' -> j_tag S kw i = j_tag S kw i' -> i = i'.
  Hypothesis Hkw : forall kw kw', KW kw -> KW kw' -> jn_kwtok S kw = jn_kwtok S kw' -> kw = kw'.

  Definition col_h (h : j_hist) : Prop :=
    col (jn_ins S) (jh_ins h) /\ col (jn_del S) (fun kw e => length (jh_rem h kw e)).
  Lemma col_h_mono h h' : hle h h' -> col_h h' -> col_h h.
  Proof.
    intros (_ & B & C) (B' & C'). split.
    - intros kw e i kw' e' i' Hi Hi'. specialize (B kw e) as B1. specialize (B kw' e') as B2. apply B'; lia.
    - intros kw e i kw' e' i' Hi Hi'. specialize (C kw e) as B1. specialize (C kw' e') as B2. apply C'; lia.
  Qed.

  Definition elt (kw : bytes) (i : N) : cached := (i, j_tag S kw i).
  Definition ct_of (kw : bytes) (e : N) (i : N) : bytes := pe_enc S (jn_pekey S (meta_keyword kw e)) i (j_tag S kw i).
  Definition share_of (kw : bytes) (e : N) (j : nat) (i : N) : bytes :=
    pe_punct S (jn_pekey S (meta_keyword kw e)) (N.of_nat j + 1) (j_tag S kw i).
  Definition rem_now (h : j_hist) (kw : bytes) : list N := jh_rem h kw (jh_epoch h kw).
  Definition keep (h : j_hist) (kw : bytes) (l : list N) : list N := filter (fun i => i ∉ rem_now h kw) l.

  Record j_inv (a : j_act) (h : j_hist) (c : j_client) (s : j_server)
      (ch cur : bytes -> list N) (gi gd : slots) (ci cd : counters) : Prop := {
    ji_ins : d_inv (jn_ins S) gi ci (js_ins s);
    ji_del : d_inv (jn_del S) gd cd (js_del s);
    ji_ci : forall kw e, (jh_epoch h kw <= e < 2 ^ 32)%N -> jc_ins c !! meta_keyword kw e = ci !! meta_keyword kw e;
    ji_cd : forall kw e, (jh_epoch h kw <= e < 2 ^ 32)%N -> jc_del c !! meta_keyword kw e = cd !! meta_keyword kw e;
    ji_sc : forall kw, j_search_counter c kw = jh_epoch h kw;
    ji_gi : ms gi (jh_ins h);
    ji_gd : ms gd (fun kw e => length (jh_rem h kw e));
    ji_cur : forall kw, gi (meta_keyword kw (jh_epoch h kw)) = (fun i => Some (ct_of kw (jh_epoch h kw) i)) <$> cur kw;
    ji_rem : forall kw, gd (meta_keyword kw (jh_epoch h kw)) = imap (fun j i => Some (share_of kw (jh_epoch h kw) j i)) (rem_now h kw);
    ji_cache : forall kw, KW kw -> list_get (jn_tagsize S) (js_cache s) (jn_kwtok S kw) = Ok (elt kw <$> ch kw);
    ji_future : forall kw e, (jh_epoch h kw < e)%N -> jh_ins h kw e = 0 /\ jh_rem h kw e = [];
    ji_docs : forall kw, ch kw ≡ₚ ja_stored a kw /\ cur kw = ja_pending a kw;
    ji_elems : forall kw i, i ∈ ch kw ++ cur kw ++ rem_now h kw -> DOC kw i /\ (i < 2 ^ 64)%N }.

  Lemma j_inv_start : j_inv j_act0 j_hist0 j_new_client j_new_server (fun _ => []) (fun _ => []) no_slots no_slots ∅ ∅.
  Proof.
    split; try done; try apply d_inv_start; try (split; [done|by intros m]).
    intros kw i Hi. simpl in Hi. by apply elem_of_nil in Hi.
  Qed.

  Lemma elt_ok kw i : (i < 2 ^ 64)%N -> cached_ok (jn_tagsize S) (elt kw i).
  Proof. intros Hi. split; [done|]. simpl. apply (jk_tag_len S Hk). Qed.
  Lemma elt_fst kw (l : list N) : (elt kw <$> l).*1 = l.
  Proof. rewrite <- list_fmap_compose. induction l as [|x l IH]; [done|]. rewrite fmap_cons. by f_equal. Qed.

  Lemma j_inv_insert a h c s ch cur gi gd ci cd kw i :
    let h' := j_hist_step h (JIns kw i) in
    few_h h' -> col_h h' -> j_op_ok1 h (JIns kw i) -> DOC kw i -> j_inv a h c s ch cur gi gd ci cd ->
    exists cur' gi' ci', j_inv (j_act_step a h (JIns kw i)) h' (j_insertion_request S c kw i).1
      (j_insert s (j_insertion_request S c kw i).2) ch cur' gi' gd ci' cd.
  Proof.
    intros h' Hfew Hcol Hi HD [I1 I2 I3 I4 I5 I6 I7 I8 I9 I10 I11 I12 I13].
    destruct Hfew as (He & Hf1 & Hf2). destruct Hcol as [Hc1 Hc2].
    set (m := meta_keyword kw (jh_epoch h kw)).
    destruct (insertion_eq (jn_ins S) gi (jh_ins h) (jc_ins c) ci (js_ins s) kw (jh_epoch h kw) (ct_of kw (jh_epoch h kw) i))
      as (v & u & E & I').
    { apply He. } { done. } { exact Hc1. } { exact Hf1. } { apply (jk_ct_len S Hk), (jk_tag_len S Hk). } { done. } { apply I3. split; [lia|apply He]. }
    assert (Er : j_insertion_request S c kw i = (JClient (<[m := v]> (jc_ins c)) (jc_del c) (jc_search c), u)).
    { unfold j_insertion_request. rewrite I5. fold (ct_of kw (jh_epoch h kw) i). by rewrite E. }
    rewrite Er. cbn [fst snd].
    exists (fun k => if decide (k = kw) then cur k ++ [i] else cur k), (add_slot gi m (ct_of kw (jh_epoch h kw) i) true), (<[m := v]> ci).
    assert (Hrn : forall k, rem_now h' k = rem_now h k) by done.
    split; cbn [jc_ins jc_del js_ins js_del js_cache j_insert jh_epoch jh_ins jh_rem h' j_hist_step]; try done.
    - intros k e Hke. destruct (decide (meta_keyword k e = m)) as [->|Hm].
      + by rewrite !lookup_insert.
      + rewrite !lookup_insert_ne by done. by apply I3.
    - apply ms_add; [apply He|done].
    - intros k. unfold add_slot. destruct (decide (k = kw)) as [->|Hne].
      + rewrite decide_True by done. rewrite I8, fmap_app. done.
      + rewrite decide_False; [apply I8|]. intros E'. apply C45_meta_keyword_injective in E' as [? _]; [done|apply He..].
    - intros k e Hlt. destruct (I11 k e Hlt) as [H1 H2]. split; [|done]. rewrite decide_False; [done|]. intros [-> ->]. lia.
    - intros k. cbn [j_act_step ja_stored ja_pending]. case_decide as Hkk; [|apply I12]. subst k.
      destruct (I12 kw) as [H1 ->]. done.
    - intros k j. rewrite Hrn. case_decide as Hkk; [|apply I13]. subst k. rewrite !elem_of_app, elem_of_list_singleton.
      intros Hj. destruct (decide (j = i)) as [->|Hji]; [done|]. apply I13. rewrite !elem_of_app. naive_solver.
  Qed.

  Lemma j_inv_remove a h c s ch cur gi gd ci cd kw i :
    let h' := j_hist_step h (JRem kw i) in
    few_h h' -> col_h h' -> j_op_ok1 h (JRem kw i) -> DOC kw i -> j_inv a h c s ch cur gi gd ci cd ->
    exists gd' cd', j_inv (j_act_step a h (JRem kw i)) h' (j_removal_request S c kw i).1
      (j_remove s (j_removal_request S c kw i).2) ch cur gi gd' ci cd'.
  Proof.
    intros h' Hfew Hcol [Hi Hnr] HD [I1 I2 I3 I4 I5 I6 I7 I8 I9 I10 I11 I12 I13].
    destruct Hfew as (He & Hf1 & Hf2). destruct Hcol as [Hc1 Hc2].
    set (m := meta_keyword kw (jh_epoch h kw)).
    assert (Hcnt : forall k e, length (jh_rem h' k e) =
      if decide (k = kw /\ e = jh_epoch h kw) then Datatypes.S (length (jh_rem h k e)) else length (jh_rem h k e)).
    { intros k e. cbn [h' j_hist_step jh_rem]. case_decide; [|done]. rewrite app_length. simpl. lia. }
    assert (Hc2' : col (jn_del S) (fun k e => if decide (k = kw /\ e = jh_epoch h kw) then Datatypes.S (length (jh_rem h k e)) else length (jh_rem h k e))).
    { intros k e j k' e' j' Hj Hj'. apply Hc2; by rewrite Hcnt. }
    assert (Hf2' : cfew (fun k e => if decide (k = kw /\ e = jh_epoch h kw) then Datatypes.S (length (jh_rem h k e)) else length (jh_rem h k e))).
    { intros k e. rewrite <- Hcnt. apply Hf2. }
    destruct (insertion_eq (jn_del S) gd (fun k e => length (jh_rem h k e)) (jc_del c) cd (js_del s) kw (jh_epoch h kw) (share_of kw (jh_epoch h kw) 0 i))
      as (v & u & E & I').
    { apply He. } { done. } { exact Hc2'. } { exact Hf2'. } { apply (jk_share_len S Hk), (jk_tag_len S Hk). } { done. } { apply I4. split; [lia|apply He]. }
    assert (Hnone : jc_del c !! m = None).
    { unfold m. rewrite I4 by (split; [lia|apply He]). rewrite (di_ctr _ _ _ _ I2), I9.
      unfold rem_now. by rewrite Hnr. }
    assert (Er : j_removal_request S c kw i = (JClient (jc_ins c) (<[m := v]> (jc_del c)) (jc_search c), u)).
    { unfold j_removal_request. rewrite I5. fold m. unfold d_get_match_count, ctr_get. rewrite Hnone.
      rewrite N.mod_small by lia.
      change (pe_punct S (jn_pekey S m) (0 + 1) (j_tag S kw i)) with (share_of kw (jh_epoch h kw) 0 i).
      unfold m. by rewrite E. }
    rewrite Er. cbn [fst snd].
    exists (add_slot gd m (share_of kw (jh_epoch h kw) 0 i) true), (<[m := v]> cd).
    assert (Hrn : forall k, rem_now h' k = if decide (k = kw) then [i] else rem_now h k).
    { intros k. unfold rem_now. cbn [h' j_hist_step jh_rem jh_epoch]. destruct (decide (k = kw)) as [->|Hne].
      - by rewrite decide_True, Hnr.
      - rewrite decide_False; [done|]. by intros [? _]. }
    split; cbn [jc_ins jc_del js_ins js_del js_cache j_remove jh_epoch jh_ins h' j_hist_step]; try done.
    - intros k e Hke. destruct (decide (meta_keyword k e = m)) as [->|Hm].
      + by rewrite !lookup_insert.
      + rewrite !lookup_insert_ne by done. by apply I4.
    - eapply ms_ext; [|apply ms_add; [apply He|exact I7]]. intros k e. symmetry. apply Hcnt.
    - intros k. fold h'. rewrite Hrn. unfold add_slot. destruct (decide (k = kw)) as [->|Hne].
      + rewrite decide_True by done. rewrite I9. unfold rem_now. rewrite Hnr. done.
      + rewrite decide_False; [apply I9|]. intros E'. apply C45_meta_keyword_injective in E' as [? _]; [done|apply He..].
    - intros k e Hlt. cbn [jh_rem]. destruct (I11 k e Hlt) as [H1 H2]. split; [done|]. rewrite decide_False; [done|]. intros [-> ->]. lia.
    - intros k j. fold h'. rewrite Hrn. case_decide as Hkk; [|apply I13]. subst k. rewrite !elem_of_app, elem_of_list_singleton.
      intros Hj. destruct (decide (j = i)) as [->|Hji]; [done|]. apply I13. rewrite !elem_of_app. naive_solver.
  Qed.

  (** What a search request gives access to. *)
  Lemma j_search_facts a h c s ch cur gi gd ci cd kw :
    few_h h -> col_h h -> KW kw -> j_inv a h c s ch cur gi gd ci cd ->
    let req := (j_search_request S c kw).2 in
    well_formed (jr_ins req) /\ well_formed (jr_del req) /\
    NoDup (request_tokens (jr_ins req)) /\ NoDup (request_tokens (jr_del req)) /\
    list_get (jn_tagsize S) (js_cache s) (jr_token req) = Ok (elt kw <$> ch kw) /\
    old_part S s req (elt kw <$> ch kw) = elt kw <$> keep h kw (ch kw) /\
    new_part S s req = elt kw <$> keep h kw (cur kw) /\
    (ds_count (jr_ins req) = N.of_nat (jh_ins h kw (jh_epoch h kw))) /\
    (ds_count (jr_del req) = N.of_nat (length (rem_now h kw))) /\
    d_inv (jn_ins S) (empty_slots gi (meta_keyword kw (jh_epoch h kw))) ci (without (request_tokens (jr_ins req)) (js_ins s)) /\
    d_inv (jn_del S) (empty_slots gd (meta_keyword kw (jh_epoch h kw))) cd (without (request_tokens (jr_del req)) (js_del s)).
  Proof.
    intros (He & Hf1 & Hf2) (Hc1 & Hc2) HK I req. destruct I as [I1 I2 I3 I4 I5 I6 I7 I8 I9 I10 I11 I12 I13].
    set (e := jh_epoch h kw). set (m := meta_keyword kw e).
    assert (Ei : jr_ins req = d_search_request (jn_ins S) ci m).
    { unfold req, j_search_request. cbn [snd jr_ins]. rewrite I5. apply search_request_agree, I3. split; [lia|apply He]. }
    assert (Ed : jr_del req = d_search_request (jn_del S) cd m).
    { unfold req, j_search_request. cbn [snd jr_del]. rewrite I5. apply search_request_agree, I4. split; [lia|apply He]. }
    assert (Fi : d_few gi) by by apply (ms_few gi (jh_ins h)).
    assert (Fd : d_few gd) by by apply (ms_few gd (fun kw e => length (jh_rem h kw e))).
    assert (Ni : d_no_collision (jn_ins S) gi) by by apply (ms_col _ gi (jh_ins h)).
    assert (Nd : d_no_collision (jn_del S) gd) by by apply (ms_col _ gd (fun kw e => length (jh_rem h kw e))).
    destruct (request_wf (jn_ins S) (jk_ins S Hk) gi ci (js_ins s) m Fi I1) as (Wi & Ti & Hi). destruct (Hi true Ni) as [Di Vi].
    destruct (request_wf (jn_del S) (jk_del S Hk) gd cd (js_del s) m Fd I2) as (Wd & Td & Hd'). destruct (Hd' true Nd) as [Dd Vd].
    assert (Es : new_shares S s req = imap (share_of kw e) (rem_now h kw)).
    { unfold new_shares. rewrite Ed, Dd. unfold m, e. rewrite I9. clear. unfold share_of.
      generalize (rem_now h kw) as l. intros l.
      assert (G : forall f : nat -> N -> bytes, omap id (imap (fun j i => Some (f j i)) l) = imap f l).
      { induction l as [|x l IH]; intros f; [done|]. cbn. f_equal. exact (IH (fun j => f (Datatypes.S j))). }
      apply G. }
    assert (Ec : new_cts S s req = ct_of kw e <$> cur kw).
    { unfold new_cts. rewrite Ei, Di. unfold m, e. rewrite I8. clear. induction (cur kw) as [|x l IH]; [done|]. cbn. f_equal. exact IH. }
    assert (Ddel : ds_count (jr_del req) = N.of_nat (length (rem_now h kw))).
    { rewrite Ed. rewrite (search_request_count _ gd cd (js_del s)) by done. unfold m, e. rewrite I9. by rewrite imap_length. }
    assert (Esh : jr_share req = pe_share0 S (jn_pekey S m) (N.of_nat (length (rem_now h kw)))).
    { rewrite <- Ddel. unfold req, j_search_request. cbn [snd jr_share jr_del]. by rewrite I5. }
    assert (Etags : forall t, t ∈ pe_share_tag S <$> new_shares S s req <-> t ∈ j_tag S kw <$> rem_now h kw).
    { intros t. rewrite Es. rewrite fmap_imap. rewrite (imap_ext _ (const (j_tag S kw))); [|intros j x _; simpl; apply (jk_share_tag S Hk), (jk_tag_len S Hk)].
      by rewrite imap_const. }
    assert (Hmem : forall i, DOC kw i -> j_tag S kw i ∈ j_tag S kw <$> rem_now h kw <-> i ∈ rem_now h kw).
    { intros i HD. rewrite elem_of_list_fmap. split.
      - intros (j & Ej & Hj). apply Htag in Ej; [by subst|done|]. apply (I13 kw j). rewrite !elem_of_app. auto.
      - intros Hj. by exists i. }
    split; [by rewrite Ei|]. split; [by rewrite Ed|].
    split; [rewrite Ei, Ti; by apply tokens_nodup|]. split; [rewrite Ed, Td; by apply tokens_nodup|].
    split; [apply (I10 kw HK)|].
    split; [|split; [|split; [|split; [done|split; [by rewrite Ei|by rewrite Ed]]]]].
    - unfold old_part, j_filter_cache, keep.
      assert (HD : Forall (DOC kw) (ch kw)).
      { apply Forall_forall. intros i Hi'. apply (I13 kw i). rewrite elem_of_app. auto. }
      clear - HD Etags Hmem. induction HD as [|i l HDi _ IH]; [done|]. rewrite fmap_cons, !filter_cons.
      rewrite IH. destruct (decide ((elt kw i).2 ∉ _)) as [H1|H1], (decide (i ∉ rem_now h kw)) as [H2|H2]; try done.
      + exfalso. apply H2. intros H3. apply H1. apply Etags, Hmem; done.
      + exfalso. apply H1. intros H3. apply H2. apply Hmem; [done|]. by apply Etags.
    - unfold new_part, j_decrypt. rewrite Ec.
      assert (HD : Forall (fun i => DOC kw i /\ (i < 2 ^ 64)%N) (cur kw)).
      { apply Forall_forall. intros i Hi'. apply (I13 kw i). rewrite !elem_of_app. auto. }
      assert (Hdec : forall i, (i < 2 ^ 64)%N -> pe_dec S (jr_share req :: new_shares S s req) (ct_of kw e i) =
        if decide (j_tag S kw i ∈ j_tag S kw <$> rem_now h kw) then None else Some i).
      { intros i Hi'. rewrite Es, Esh. unfold ct_of. fold m.
        rewrite <- (jk_dec S Hk (jn_pekey S m) (j_tag S kw <$> rem_now h kw) i (j_tag S kw i) Hi'); [|apply Forall_fmap, Forall_true; intros ?; apply (jk_tag_len S Hk)|apply (jk_tag_len S Hk)].
        rewrite fmap_length, imap_fmap. done. }
      clear - HD Hdec Hmem Hk. unfold keep. induction HD as [|i l [HDi Hi'] _ IH]; [done|].
      rewrite fmap_cons. cbn [omap list_omap]. rewrite Hdec by done. rewrite filter_cons.
      destruct (decide (j_tag S kw i ∈ _)) as [H1|H1], (decide (i ∉ rem_now h kw)) as [H2|H2].
      + exfalso. apply H2. by apply Hmem.
      + exact IH.
      + rewrite fmap_cons. cbn [fmap option_fmap option_map]. unfold ct_of at 1. rewrite (jk_ct_tag S Hk) by apply (jk_tag_len S Hk). f_equal. exact IH.
      + exfalso. apply H2. intros H3. apply H1. by apply Hmem.
    - rewrite Ei, (search_request_count _ gi ci (js_ins s)) by done. f_equal. apply (ms_len _ _ I6). apply He.
  Qed.

  Lemma j_search_client h c kw :
    (jh_epoch h kw + 1 < 2 ^ 32)%N \/ quiet h kw ->
    (forall k, j_search_counter c k = jh_epoch h k) ->
    ds_count (jr_ins (j_search_request S c kw).2) = N.of_nat (jh_ins h kw (jh_epoch h kw)) ->
    ds_count (jr_del (j_search_request S c kw).2) = N.of_nat (length (rem_now h kw)) ->
    (quiet h kw -> (j_search_request S c kw).1 = c) /\
    (forall k, j_search_counter (j_search_request S c kw).1 k = jh_epoch (j_hist_step h (JFind kw)) k) /\
    (forall m, m <> meta_keyword kw (jh_epoch h kw) ->
       jc_ins (j_search_request S c kw).1 !! m = jc_ins c !! m /\ jc_del (j_search_request S c kw).1 !! m = jc_del c !! m).
  Proof.
    intros Hb Hsc Ei Ed. unfold j_search_request in *. cbn [fst snd jr_ins jr_del] in *. rewrite Ei, Ed, Hsc. clear Ei Ed.
    split_and!.
    - intros [Q1 Q2]. unfold rem_now. rewrite Q1, Q2. simpl. by destruct c.
    - intros k. unfold j_hist_step. case_decide as Hq.
      + destruct Hq as [Q1 Q2]. unfold rem_now. rewrite Q1, Q2. simpl. apply Hsc.
      + assert (Hs : ((0 <? N.of_nat (jh_ins h kw (jh_epoch h kw)))%N || (0 <? N.of_nat (length (rem_now h kw)))%N) = true).
        { apply orb_true_iff. rewrite !N.ltb_lt. destruct (decide (jh_ins h kw (jh_epoch h kw) = 0)) as [Q1|]; [|lia].
          right. destruct (rem_now h kw) as [|? ?] eqn:Q2; [|simpl; lia]. by destruct Hq. }
        rewrite Hs. unfold j_search_counter, ctr_get, ctr_set. cbn [jc_search jh_epoch]. case_decide as Hkk.
        * subst k. rewrite lookup_insert. simpl. apply N.mod_small. destruct Hb as [Hb|Hb]; [done|by destruct Hq].
        * rewrite lookup_insert_ne by done. apply Hsc.
    - intros m Hm. cbn [jc_ins jc_del]. unfold d_remove_keyword, ctr_remove.
      split; case_match; try done; by rewrite lookup_delete_ne.
  Qed.

  Lemma j_inv_search a h c s ch cur gi gd ci cd kw (del : bool) (il : list N) :
    few_h (j_hist_step h (JFind kw)) -> col_h (j_hist_step h (JFind kw)) -> KW kw ->
    j_inv a h c s ch cur gi gd ci cd ->
    il ≡ₚ keep h kw (ch kw ++ cur kw) ->
    let req := (j_search_request S c kw).2 in
    exists ch' cur' gi' gd', j_inv (j_act_step a h (JFind kw)) (j_hist_step h (JFind kw)) (j_search_request S c kw).1
      (JServer (if del then without (request_tokens (jr_ins req)) (js_ins s) else js_ins s)
         (without (request_tokens (jr_del req)) (js_del s))
         (list_put (js_cache s) (jr_token req) (elt kw <$> il))) ch' cur' gi' gd' ci cd.
  Proof.
    intros Hfew Hcol HK I Hil req.
    assert (Hle : hle h (j_hist_step h (JFind kw))) by apply hle_step.
    destruct (j_search_facts _ _ _ _ _ _ _ _ _ _ kw (few_h_mono _ _ Hle Hfew) (col_h_mono _ _ Hle Hcol) HK I)
      as (_ & _ & _ & _ & _ & _ & _ & Ci & Cd & Vi & Vd).
    fold req in Ci, Cd, Vi, Vd. destruct I as [I1 I2 I3 I4 I5 I6 I7 I8 I9 I10 I11 I12 I13].
    destruct Hfew as (He & _ & _). set (e := jh_epoch h kw). set (m := meta_keyword kw e).
    assert (He0 : forall k, (jh_epoch h k < 2 ^ 32)%N).
    { intros k. destruct Hle as (Hle & _). specialize (Hle k). specialize (He k). lia. }
    destruct (j_search_client h c kw) as (Hcq & Hcs & Hcm); [|done|exact Ci|exact Cd|].
    { specialize (He kw). unfold j_hist_step in He. case_decide as Hq; [by right|left].
      cbn [jh_epoch] in He. by rewrite decide_True in He. }
    assert (Hil64 : Forall (fun i => DOC kw i /\ (i < 2 ^ 64)%N) il).
    { rewrite Hil. apply Forall_forall. intros i Hi. unfold keep in Hi. apply elem_of_list_filter in Hi as [_ Hi].
      apply (I13 kw i). rewrite !elem_of_app in *. naive_solver. }
    exists (fun k => if decide (k = kw) then il else ch k), (fun k => if decide (k = kw) then [] else cur k),
      (if del then empty_slots gi m else gi), (empty_slots gd m).
    assert (Hep : forall k, k <> kw -> jh_epoch (j_hist_step h (JFind kw)) k = jh_epoch h k).
    { intros k Hk'. unfold j_hist_step. case_decide; [done|]. cbn [jh_epoch]. by rewrite decide_False. }
    assert (Hins : jh_ins (j_hist_step h (JFind kw)) = jh_ins h) by (unfold j_hist_step; by case_decide).
    assert (Hrem : jh_rem (j_hist_step h (JFind kw)) = jh_rem h) by (unfold j_hist_step; by case_decide).
    assert (Hekw : quiet h kw /\ jh_epoch (j_hist_step h (JFind kw)) kw = e \/
                   jh_epoch (j_hist_step h (JFind kw)) kw = (e + 1)%N).
    { unfold j_hist_step. case_decide; [by left|right]. cbn [jh_epoch]. by rewrite decide_True. }
    assert (Hnow : rem_now (j_hist_step h (JFind kw)) kw = [] /\ jh_ins h kw (jh_epoch (j_hist_step h (JFind kw)) kw) = 0).
    { unfold rem_now. rewrite Hrem. destruct Hekw as [[[Q1 Q2] ->]| ->]; [done|].
      destruct (I11 kw (e + 1)%N) as [-> ->]; [unfold e; lia|done]. }
    destruct Hnow as [Hnow Hnow'].
    assert (Hnow2 : forall k, k <> kw -> rem_now (j_hist_step h (JFind kw)) k = rem_now h k).
    { intros k Hk'. unfold rem_now. by rewrite Hrem, Hep. }
    assert (Hmeta : forall k e', (e' < 2 ^ 32)%N -> meta_keyword k e' = m -> k = kw /\ e' = e).
    { intros k e' He' Em. apply C45_meta_keyword_injective in Em; [done|done|apply He0]. }
    assert (Hagree : forall k e', (jh_epoch (j_hist_step h (JFind kw)) k <= e' < 2 ^ 32)%N ->
      jc_ins (j_search_request S c kw).1 !! meta_keyword k e' = jc_ins c !! meta_keyword k e' /\
      jc_del (j_search_request S c kw).1 !! meta_keyword k e' = jc_del c !! meta_keyword k e').
    { intros k e' Hke. destruct (decide (meta_keyword k e' = m)) as [Em|Em]; [|by apply Hcm].
      apply Hmeta in Em as [-> ->]; [|lia]. destruct Hekw as [[Hq _]|Hek]; [by rewrite Hcq|rewrite Hek in Hke; lia]. }
    assert (Hepl : forall k, (jh_epoch h k <= jh_epoch (j_hist_step h (JFind kw)) k)%N) by (intros k; apply Hle).
    split; cbn [js_ins js_del js_cache].
    - destruct del; [exact Vi|done].
    - exact Vd.
    - intros k e' Hke. destruct (Hagree k e' Hke) as [-> _]. apply I3. specialize (Hepl k). lia.
    - intros k e' Hke. destruct (Hagree k e' Hke) as [_ ->]. apply I4. specialize (Hepl k). lia.
    - exact Hcs.
    - rewrite Hins. destruct del; [by apply ms_empty|done].
    - eapply ms_ext; [|apply ms_empty, I7]. intros k e'. by rewrite Hrem.
    - intros k. case_decide as Hkk.
      + subst k. assert (Hl : length (gi (meta_keyword kw (jh_epoch (j_hist_step h (JFind kw)) kw))) = 0).
        { rewrite (ms_len _ _ I6) by apply He. exact Hnow'. }
        apply nil_length_inv in Hl. destruct del; [|by rewrite Hl]. unfold empty_slots. rewrite Hl. by case_decide.
      + rewrite Hep by done. destruct del; [|apply I8]. unfold empty_slots. rewrite decide_False; [apply I8|].
        intros Em. apply Hmeta in Em as [? _]; [done|apply He0].
    - intros k. destruct (decide (k = kw)) as [->|Hkk].
      + rewrite Hnow. assert (Hl : length (gd (meta_keyword kw (jh_epoch (j_hist_step h (JFind kw)) kw))) = 0).
        { rewrite (ms_len _ _ I7) by apply He. unfold rem_now in Hnow. rewrite Hrem in Hnow. by rewrite Hnow. }
        apply nil_length_inv in Hl. unfold empty_slots. rewrite Hl. by case_decide.
      + rewrite Hnow2, Hep by done. unfold empty_slots. rewrite decide_False; [apply I9|].
        intros Em. apply Hmeta in Em as [? _]; [done|apply He0].
    - intros k HKk. destruct (decide (k = kw)) as [->|Hkk].
      + change (jr_token req) with (jn_kwtok S kw). apply list_get_put; [apply (jk_tag_size S Hk)|].
        apply Forall_fmap. eapply Forall_impl; [exact Hil64|]. intros i [_ Hi]. by apply elt_ok.
      + change (jr_token req) with (jn_kwtok S kw). rewrite list_get_put_ne; [by apply I10|].
        intros E. apply Hkk. symmetry. by apply Hkw.
    - intros k e' Hke. rewrite Hins, Hrem. apply I11. specialize (Hepl k). lia.
    - intros k. cbn [j_act_step ja_stored ja_pending]. destruct (decide (k = kw)) as [->|Hkk].
      + rewrite Hil. unfold keep. destruct (I12 kw) as [-> ->]. done.
      + apply I12.
    - intros k i. destruct (decide (k = kw)) as [->|Hkk].
      + rewrite Hnow, !app_nil_r. intros Hi. rewrite Forall_forall in Hil64. by apply Hil64.
      + rewrite Hnow2 by done. apply I13.
  Qed.

  Lemma j_inv_lost a h c s ch cur gi gd ci cd kw :
    few_h (j_hist_step h (JLost kw)) -> col_h (j_hist_step h (JLost kw)) -> KW kw ->
    j_inv a h c s ch cur gi gd ci cd ->
    exists cur', j_inv (j_act_step a h (JLost kw)) (j_hist_step h (JLost kw)) (j_search_request S c kw).1 s ch cur' gi gd ci cd.
  Proof.
    intros Hfew Hcol HK I.
    assert (Hle : hle h (j_hist_step h (JLost kw))) by apply hle_step.
    destruct (j_search_facts _ _ _ _ _ _ _ _ _ _ kw (few_h_mono _ _ Hle Hfew) (col_h_mono _ _ Hle Hcol) HK I)
      as (_ & _ & _ & _ & _ & _ & _ & Ci & Cd & _ & _).
    destruct I as [I1 I2 I3 I4 I5 I6 I7 I8 I9 I10 I11 I12 I13].
    destruct Hfew as (He & _ & _). set (e := jh_epoch h kw). set (m := meta_keyword kw e).
    assert (He0 : forall k, (jh_epoch h k < 2 ^ 32)%N).
    { intros k. destruct Hle as (Hle & _). specialize (Hle k). specialize (He k). lia. }
    destruct (j_search_client h c kw) as (Hcq & Hcs & Hcm); [|done|exact Ci|exact Cd|].
    { specialize (He kw). unfold j_hist_step in He. case_decide as Hq; [by right|left].
      cbn [jh_epoch] in He. by rewrite decide_True in He. }
    exists (fun k => if decide (k = kw) then [] else cur k).
    destruct (decide (quiet h kw)) as [Hq|Hq].
    { assert (Eh : j_hist_step h (JLost kw) = h) by (unfold j_hist_step; by rewrite decide_True).
      rewrite Eh, Hcq by done.
      assert (Hc0 : cur kw = []).
      { pose proof (f_equal length (I8 kw)) as El. rewrite (ms_len _ _ I6), fmap_length in El by apply He0.
        destruct Hq as [Q1 _]. rewrite Q1 in El. by apply nil_length_inv. }
      assert (Hcur : forall k, (if decide (k = kw) then [] else cur k) = cur k).
      { intros k. case_decide; [by subst|done]. }
      split; try done.
      - intros k. rewrite Hcur. apply I8.
      - intros k. cbn [j_act_step ja_stored ja_pending]. case_decide; [|apply I12]. split; [apply I12|done].
      - intros k i. rewrite Hcur. apply I13. }
    assert (Eh : j_hist_step h (JLost kw) = JHist (fun k => if decide (k = kw) then (jh_epoch h k + 1)%N else jh_epoch h k) (jh_ins h) (jh_rem h))
      by (unfold j_hist_step; by rewrite decide_False).
    assert (Hep : forall k, jh_epoch (j_hist_step h (JLost kw)) k = if decide (k = kw) then (jh_epoch h k + 1)%N else jh_epoch h k).
    { intros k. by rewrite Eh. }
    assert (Hins : jh_ins (j_hist_step h (JLost kw)) = jh_ins h) by by rewrite Eh.
    assert (Hrem : jh_rem (j_hist_step h (JLost kw)) = jh_rem h) by by rewrite Eh.
    assert (Hnew : jh_ins h kw (jh_epoch h kw + 1) = 0 /\ jh_rem h kw (jh_epoch h kw + 1) = []) by (apply I11; lia).
    assert (Hagree : forall k e', (jh_epoch (j_hist_step h (JLost kw)) k <= e' < 2 ^ 32)%N ->
      jc_ins (j_search_request S c kw).1 !! meta_keyword k e' = jc_ins c !! meta_keyword k e' /\
      jc_del (j_search_request S c kw).1 !! meta_keyword k e' = jc_del c !! meta_keyword k e').
    { intros k e' Hke. apply Hcm. intros Em. apply C45_meta_keyword_injective in Em as [-> ->]; [|lia|apply He0].
      rewrite Hep, decide_True in Hke by done. lia. }
    assert (Hepl : forall k, (jh_epoch h k <= jh_epoch (j_hist_step h (JLost kw)) k)%N) by (intros k; apply Hle).
    split; try done.
    - intros k e' Hke. destruct (Hagree k e' Hke) as [-> _]. apply I3. specialize (Hepl k). lia.
    - intros k e' Hke. destruct (Hagree k e' Hke) as [_ ->]. apply I4. specialize (Hepl k). lia.
    - by rewrite Hins.
    - by rewrite Hrem.
    - intros k. pose proof (He k) as Hek. rewrite Hep in *. case_decide as Hkk; [|apply I8]. subst k.
      apply nil_length_inv. rewrite (ms_len _ _ I6) by done. apply Hnew.
    - intros k. pose proof (He k) as Hek. unfold rem_now. rewrite Hrem, Hep in *. case_decide as Hkk; [|apply I9]. subst k.
      destruct Hnew as [_ Hnew]. rewrite Hnew. apply nil_length_inv. rewrite (ms_len _ _ I7) by done. by rewrite Hnew.
    - intros k e' Hke. rewrite Hins, Hrem. apply I11. specialize (Hepl k). lia.
    - intros k. cbn [j_act_step ja_stored ja_pending]. case_decide; [|apply I12]. split; [apply I12|done].
    - intros k i. unfold rem_now. rewrite Hrem, Hep. case_decide as Hkk; [|apply I13]. subst k.
      destruct Hnew as [_ ->]. rewrite ?app_nil_r. intros Hi. apply I13. rewrite elem_of_app. by left.
  Qed.

  Lemma keep_app h kw l1 l2 : keep h kw (l1 ++ l2) = keep h kw l1 ++ keep h kw l2.
  Proof. unfold keep. apply filter_app. Qed.

  (** Answers, and existence of an execution. *)
  Lemma j_run_ok ops : forall a h c s ch cur gi gd ci cd,
    few_h (foldl j_hist_step h ops) -> col_h (foldl j_hist_step h ops) -> j_ok1 h ops ->
    Forall (fun o => KW (op_kw o) /\ forall i, i ∈ op_docs (op_kw o) o -> DOC (op_kw o) i) ops ->
    j_inv a h c s ch cur gi gd ci cd ->
    (forall ans c' s', j_run S c s ops ans c' s' -> Forall2 (≡ₚ) ans (j_actual a h ops)) /\
    exists ans c' s', j_run S c s ops ans c' s'.
  Proof.
    induction ops as [|o ops IH]; intros a h c s ch cur gi gd ci cd Hfew Hcol Hok Hin I.
    { split; [intros ans c' s' Hr; inversion Hr; constructor|do 3 eexists; constructor]. }
    cbn [foldl] in Hfew, Hcol. destruct Hok as [Ho Hok]. apply Forall_cons in Hin as [[HK HD] Hin].
    assert (Hle := hle_steps ops (j_hist_step h o)).
    assert (Hfew1 := few_h_mono _ _ Hle Hfew). assert (Hcol1 := col_h_mono _ _ Hle Hcol).
    assert (Hle0 := hle_step h o).
    destruct o as [kw i|kw i|kw|kw n|kw]; cbn [op_kw op_docs] in HK, HD; cbn [j_actual].
    - destruct (j_inv_insert a h c s ch cur gi gd ci cd kw i) as (cur' & gi' & ci' & I'); [done|done|done| |done|].
      { apply HD. rewrite decide_True by done. by apply elem_of_list_singleton. }
      destruct (IH _ _ _ _ _ _ _ _ _ _ Hfew Hcol Hok Hin I') as (H1 & ans & c' & s' & H2). split.
      + intros ans' c2 s2 Hr. inversion Hr; subst. by eapply H1.
      + exists ans, c', s'. by constructor.
    - destruct (j_inv_remove a h c s ch cur gi gd ci cd kw i) as (gd' & cd' & I'); [done|done|done| |done|].
      { apply HD. rewrite decide_True by done. by apply elem_of_list_singleton. }
      destruct (IH _ _ _ _ _ _ _ _ _ _ Hfew Hcol Hok Hin I') as (H1 & ans & c' & s' & H2). split.
      + intros ans' c2 s2 Hr. inversion Hr; subst. by eapply H1.
      + exists ans, c', s'. by constructor.
    - destruct (j_search_facts a h c s ch cur gi gd ci cd kw) as (Wi & Wd & Ni & Nd & Hl & Eo & En & _);
        [by eapply few_h_mono|by eapply col_h_mono|done|done|].
      pose proof (search_seq_eq S s _ _ Wi Wd Ni Nd Hl) as E. rewrite Eo, En, <- fmap_app, <- keep_app, elt_fst in E.
      destruct (j_inv_search a h c s ch cur gi gd ci cd kw true (keep h kw (ch kw ++ cur kw)) Hfew1 Hcol1 HK I ltac:(done))
        as (ch' & cur' & gi' & gd' & I').
      destruct (IH _ _ _ _ _ _ _ _ _ _ Hfew Hcol Hok Hin I') as (H1 & ans & c' & s' & H2). split.
      + intros ans' c2 s2 Hr. inversion Hr as [| | |? ? ? s1 a1 ? ? ? ? Hs Hr'| |]; subst.
        rewrite E in Hs. injection Hs as <- <-. constructor; [|by eapply H1]. destruct (ji_docs _ _ _ _ _ _ _ _ _ _ I kw) as [Hd1 Hd2]. unfold keep, ja_docs. by rewrite Hd1, Hd2.
      + do 3 eexists. econstructor; [exact E|exact H2].
    - destruct (j_search_facts a h c s ch cur gi gd ci cd kw) as (Wi & Wd & Ni & Nd & Hl & Eo & En & _);
        [by eapply few_h_mono|by eapply col_h_mono|done|done|].
      destruct (search_par_eq S s _ _ n Ho Wi Wd Nd Hl) as (f0 & Hf0 & Hf).
      rewrite Eo, En, <- !fmap_app, elt_fst in Hf.
      assert (Hp : keep h kw (cur kw) ++ keep h kw (ch kw) ≡ₚ keep h kw (ch kw ++ cur kw)).
      { rewrite keep_app. apply Permutation_app_comm. }
      destruct (j_inv_search a h c s ch cur gi gd ci cd kw false (keep h kw (cur kw) ++ keep h kw (ch kw)) Hfew1 Hcol1 HK I Hp)
        as (ch' & cur' & gi' & gd' & I').
      destruct (IH _ _ _ _ _ _ _ _ _ _ Hfew Hcol Hok Hin I') as (H1 & ans & c' & s' & H2). split.
      + intros ans' c2 s2 Hr. inversion Hr as [| | | |? ? ? ? f0' f s1 calls ? ? ? ? Hs Hst Hfin Hend Hr'|]; subst.
        rewrite Hf0 in Hs. injection Hs as <-. destruct (Hf f Hst Hfin) as (calls' & E & _ & El & _).
        rewrite E in Hend. injection Hend as <- <-. rewrite El. constructor; [|by eapply H1].
        rewrite Hp. destruct (ji_docs _ _ _ _ _ _ _ _ _ _ I kw) as [Hd1 Hd2]. unfold keep, ja_docs. by rewrite Hd1, Hd2.
      + destruct (C38_terminates _ _ _ _ true _ Hf0) as (bound & Hb).
        assert (Hex : exists f, rtc (d_step (jn_del S) true) f0 f /\ d_finished f).
        { assert (G : forall r k f, k + r = bound -> nsteps (d_step (jn_del S) true) k f0 f ->
            exists f', rtc (d_step (jn_del S) true) f0 f' /\ d_finished f').
          { induction r as [|r IHr]; intros k f Hkr Hst; destruct (Hb k f Hst) as [_ [Hfin|[f' Hst']]].
            - exists f. split; [apply rtc_nsteps; eauto|done].
            - exfalso. destruct (Hb (Datatypes.S k) f') as [? _]; [by eapply nsteps_r|lia].
            - exists f. split; [apply rtc_nsteps; eauto|done].
            - apply (IHr (Datatypes.S k) f'); [lia|by eapply nsteps_r]. }
          apply (G bound 0 f0); [lia|constructor]. }
        destruct Hex as (f & Hst & Hfin). destruct (Hf f Hst Hfin) as (calls & E & _).
        do 3 eexists. econstructor; [exact Hf0|exact Hst|exact Hfin|exact E|exact H2].
    - destruct (j_inv_lost a h c s ch cur gi gd ci cd kw Hfew1 Hcol1 HK I) as (cur' & I').
      destruct (IH _ _ _ _ _ _ _ _ _ _ Hfew Hcol Hok Hin I') as (H1 & ans & c' & s' & H2). split.
      + intros ans' c2 s2 Hr. inversion Hr; subst. by eapply H1.
      + exists ans, c', s'. by constructor.
  Qed.
End history.

(** On the histories of the specification, what Janus does is what it must do. *)
Lemma actual_ok ops : forall a h docs, j_ok h ops -> (forall kw, docs kw ≡ₚ ja_docs a h kw) ->
  (forall kw e, (jh_epoch h kw < e)%N -> jh_rem h kw e = []) ->
  (forall kw, jh_ins h kw (jh_epoch h kw) = length (ja_pending a kw)) ->
  (forall kw e, (jh_epoch h kw < e)%N -> jh_ins h kw e = 0) ->
  Forall2 (≡ₚ) (j_actual a h ops) (j_answers docs ops).
Proof.
  induction ops as [|o ops IH]; intros a h docs Hok Hd Hf Hp Hfi; [constructor|].
  destruct Hok as [Ho Hok].
  assert (Hfind : forall kw, (forall a', a' = JAct (fun k => if decide (k = kw) then ja_docs a h k else ja_stored a k)
           (fun k => if decide (k = kw) then [] else ja_pending a k) ->
    (forall k, docs k ≡ₚ ja_docs a' (j_hist_step h (JFind kw)) k) /\
    (forall k e, (jh_epoch (j_hist_step h (JFind kw)) k < e)%N -> jh_rem (j_hist_step h (JFind kw)) k e = []) /\
    (forall k, jh_ins (j_hist_step h (JFind kw)) k (jh_epoch (j_hist_step h (JFind kw)) k) = length (ja_pending a' k)) /\
    (forall k e, (jh_epoch (j_hist_step h (JFind kw)) k < e)%N -> jh_ins (j_hist_step h (JFind kw)) k e = 0))).
  { intros kw a' ->.
    assert (Hfn : forall l : list N, filter (fun i => i ∉ []) l = l).
    { induction l as [|x l IHl]; [done|]. rewrite filter_cons_True by apply not_elem_of_nil. by rewrite IHl. }
    unfold j_hist_step. case_decide as Hq.
    - destruct Hq as [Q1 Q2]. rewrite Hp in Q1. apply nil_length_inv in Q1. split_and!; [|done| |done].
      + intros k. rewrite Hd. unfold ja_docs. cbn [ja_stored ja_pending]. case_decide as Hkk; [|done]. subst k.
        unfold ja_docs. rewrite Q1, Q2, !app_nil_r, !Hfn. done.
      + intros k. cbn [ja_pending]. case_decide as Hkk; [|apply Hp]. subst k. by rewrite Hp, Q1.
    - cbn [jh_epoch jh_rem jh_ins]. split_and!.
      + intros k. rewrite Hd. unfold ja_docs at 2. cbn [ja_stored ja_pending jh_epoch jh_rem]. case_decide as Hkk; [|done]. subst k.
        rewrite Hf by lia. by rewrite Hfn, app_nil_r.
      + intros k e. case_decide; intros He; apply Hf; lia.
      + intros k. cbn [ja_pending]. case_decide; [|apply Hp]. subst k. apply Hfi. lia.
      + intros k e. case_decide; intros He; apply Hfi; lia. }
  destruct o as [kw i|kw i|kw|kw n|kw]; cbn [j_actual j_answers].
  - destruct Ho as [Hi Hni]. apply IH; try done.
    + intros k. cbn [j_docs_step j_hist_step j_act_step]. unfold ja_docs. cbn [ja_stored ja_pending jh_epoch jh_rem].
      case_decide as Hkk; [|apply Hd]. subst k. rewrite Hd. unfold ja_docs. 
      rewrite !filter_app, (filter_cons_True _ i) by done. by rewrite <- app_assoc.
    + intros k. cbn [j_hist_step j_act_step jh_ins jh_epoch ja_pending]. destruct (decide (k = kw)) as [->|Hkk].
      * rewrite decide_True, app_length, Hp by done. simpl. lia.
      * rewrite decide_False by (intros [? _]; done). apply Hp.
    + intros k e He. cbn [j_hist_step jh_ins jh_epoch] in *. rewrite decide_False; [by apply Hfi|]. intros [-> ->]. lia.
  - destruct Ho as [Hi Hni]. apply IH; try done.
    + intros k. cbn [j_docs_step j_hist_step j_act_step]. unfold ja_docs. cbn [jh_epoch jh_rem].
      destruct (decide (k = kw)) as [->|Hkk].
      * rewrite decide_True by done. rewrite Hd. unfold ja_docs. rewrite Hni, list_filter_filter. simpl.
        erewrite list_filter_iff; [reflexivity|]. intros j. simpl. rewrite elem_of_list_singleton.
        pose proof (not_elem_of_nil j). naive_solver.
      * rewrite decide_False by (intros [? _]; done). apply Hd.
    + intros k e He. cbn [j_hist_step jh_rem jh_epoch] in *. rewrite decide_False; [by apply Hf|]. intros [-> ->]. lia.
  - destruct (Hfind kw _ eq_refl) as (F1 & F2 & F3 & F4). constructor; [by symmetry|]. by apply IH.
  - destruct (Hfind kw _ eq_refl) as (F1 & F2 & F3 & F4). constructor; [by symmetry|]. by apply IH.
  - assert (Hh : j_hist_step h (JLost kw) = h) by (unfold j_hist_step; by rewrite decide_True).
    rewrite Hh in *.
    assert (Hcur : forall k, (if decide (k = kw) then [] else ja_pending a k) = ja_pending a k).
    { intros k. case_decide; [|done]. subst k. symmetry. apply nil_length_inv. rewrite <- Hp. apply Ho. }
    apply IH; try done.
    + intros k. rewrite Hd. unfold ja_docs. cbn [j_act_step ja_stored ja_pending]. by rewrite Hcur.
    + intros k. cbn [j_act_step ja_pending]. rewrite Hcur. apply Hp.
Qed.
Lemma j_ok_weaken ops : forall h, j_ok h ops -> j_ok1 h ops.
Proof.
  induction ops as [|o ops IH]; intros h; [done|]. intros [Ho Hok]. split; [|by apply IH].
  destruct o; simpl in *; naive_solver.
Qed.

(** ** Repeated searches *)
Section repeated.
  Variable S : janus.
  Hypothesis Ht : j_types_ok S.

  Record q_inv (k : N) (c : j_client) (s : j_server) : Prop := {
    q_few : forall kw, (j_search_counter c kw <= k)%N;
    q_fresh : forall kw e, (j_search_counter c kw < e < 2 ^ 32)%N ->
      jc_ins c !! meta_keyword kw e = None /\ jc_del c !! meta_keyword kw e = None;
    q_cache : forall t, exists l, list_get (jn_tagsize S) (js_cache s) t = Ok l /\ Forall (cached_ok (jn_tagsize S)) l }.

  Lemma q_start : q_inv 0 j_new_client j_new_server.
  Proof. split; [intros; done|done|]. intros t. by exists []. Qed.

  Lemma q_mono k k' c s : (k <= k')%N -> q_inv k c s -> q_inv k' c s.
  Proof. intros Hle [Q1 Q2 Q3]. split; [|done|done]. intros kw. specialize (Q1 kw). lia. Qed.

  Lemma q_update k c s c' s' kw : (k + 1 < 2 ^ 32)%N -> q_inv k c s ->
    jc_search c' = jc_search c -> js_cache s' = js_cache s ->
    (forall m, m <> meta_keyword kw (j_search_counter c kw) -> jc_ins c' !! m = jc_ins c !! m /\ jc_del c' !! m = jc_del c !! m) ->
    q_inv (k + 1) c' s'.
  Proof.
    intros Hk [Q1 Q2 Q3] E1 E2 Hm.
    assert (Esc : forall x, j_search_counter c' x = j_search_counter c x) by (intros x; unfold j_search_counter; by rewrite E1).
    split.
    - intros x. rewrite Esc. specialize (Q1 x). lia.
    - intros x e. rewrite Esc. intros He. destruct (Hm (meta_keyword x e)) as [-> ->]; [|by apply Q2].
      intros E. apply C45_meta_keyword_injective in E as [-> ->]; [lia|lia|]. specialize (Q1 kw). lia.
    - intros t. rewrite E2. apply Q3.
  Qed.

  Lemma q_client k c s kw : (k + 1 < 2 ^ 32)%N -> q_inv k c s ->
    let c' := (j_search_request S c kw).1 in
    q_inv (k + 1) c' s /\
    ds_count (jr_ins (j_search_request S c' kw).2) = 0%N /\ ds_count (jr_del (j_search_request S c' kw).2) = 0%N.
  Proof.
    intros Hk Q. pose proof Q as [Q1 Q2 Q3]. set (m := meta_keyword kw (j_search_counter c kw)).
    unfold j_search_request at 1. fold m.
    set (ri := d_search_request (jn_ins S) (jc_ins c) m). set (rd := d_search_request (jn_del S) (jc_del c) m).
    destruct ((0 <? ds_count ri)%N || (0 <? ds_count rd)%N) eqn:Es; cbn [fst].
    - assert (Hb : (j_search_counter c kw + 1 < 2 ^ 32)%N) by (specialize (Q1 kw); lia).
      set (c' := JClient _ _ _). 
      assert (Esc : forall x, j_search_counter c' x = if decide (x = kw) then (j_search_counter c kw + 1)%N else j_search_counter c x).
      { intros x. unfold c', j_search_counter at 1, ctr_get, ctr_set. cbn [jc_search]. case_decide as Hx.
        - subst x. rewrite lookup_insert. simpl. by apply N.mod_small.
        - by rewrite lookup_insert_ne. }
      assert (Hsub : forall x, (jc_ins c !! x = None -> jc_ins c' !! x = None) /\ (jc_del c !! x = None -> jc_del c' !! x = None)).
      { intros x. unfold c', d_remove_keyword, ctr_remove. cbn [jc_ins jc_del]. split; intros E; case_match; try done; rewrite lookup_delete_None; auto. }
      split_and!.
      + split.
        * intros x. rewrite Esc. specialize (Q1 x). case_decide; [subst|]; lia.
        * intros x e. rewrite Esc. intros He. destruct (Q2 x e) as [H1 H2]; [case_decide; [subst|]; lia|].
          destruct (Hsub (meta_keyword x e)) as [H3 H4]. auto.
        * exact Q3.
      + unfold j_search_request. cbn [snd jr_ins]. rewrite Esc, decide_True by done.
        unfold d_search_request, ctr_get. destruct (Q2 kw (j_search_counter c kw + 1)%N) as [H1 H2]; [lia|].
        destruct (Hsub (meta_keyword kw (j_search_counter c kw + 1))) as [H3 H4]. by rewrite H3.
      + unfold j_search_request. cbn [snd jr_del]. rewrite Esc, decide_True by done.
        unfold d_search_request, ctr_get. destruct (Q2 kw (j_search_counter c kw + 1)%N) as [H1 H2]; [lia|].
        destruct (Hsub (meta_keyword kw (j_search_counter c kw + 1))) as [H3 H4]. by rewrite H4.
    - apply orb_false_iff in Es as [Ei Ed]. rewrite Ei, Ed.
      replace (JClient (jc_ins c) (jc_del c) (jc_search c)) with c by by destruct c.
      apply N.ltb_ge in Ei, Ed. unfold j_search_request. cbn [snd jr_ins jr_del]. fold m ri rd.
      split_and!; [|lia|lia]. eapply q_mono; [|exact Q]. lia.
  Qed.

  Lemma filter_ok ks l : Forall (cached_ok (jn_tagsize S)) l -> Forall (cached_ok (jn_tagsize S)) (j_filter_cache S ks l).
  Proof. 
    rewrite !Forall_forall. intros H x Hx. apply H. unfold j_filter_cache in Hx. by apply elem_of_list_filter in Hx as [_ ?].
   Qed.
  Lemma decrypt_ok ks cts : Forall (cached_ok (jn_tagsize S)) (j_decrypt S ks cts).
  Proof.
    unfold j_decrypt. induction cts as [|ct cts IH]; [constructor|]. cbn [omap list_omap].
    destruct (pe_dec S ks ct) as [r|] eqn:E; [|exact IH]. constructor; [|exact IH]. simpl.
    split; [by eapply jt_doc|by apply jt_tag].
  Qed.

  Lemma cache_put_ok c k s s' t l :
    q_inv k c s -> Forall (cached_ok (jn_tagsize S)) l -> js_cache s' = list_put (js_cache s) t l -> q_inv k c s'.
  Proof.
    intros [Q1 Q2 Q3] Hl E. split; [done|done|]. intros t'. rewrite E. destruct (decide (t = t')) as [<-|Hne].
    - exists l. split; [|done]. apply list_get_put; [apply (jt_size S Ht)|done].
    - rewrite list_get_put_ne by done. apply Q3.
  Qed.

  (** After a search, the cache has what was answered. *)
  Lemma q_seq k c s kw req s' a : (k + 1 < 2 ^ 32)%N -> q_inv k c s -> jr_token req = jn_kwtok S kw ->
    j_server_search S s req = Ok (s', a) ->
    exists l, Forall (cached_ok (jn_tagsize S)) l /\ js_cache s' = list_put (js_cache s) (jn_kwtok S kw) l /\ a = l.*1.
  Proof.
    intros Hk Q Et E. unfold j_server_search in E. rewrite Et in E.
    destruct (d_server_search_list _ _ (jr_ins req) _) as [ri| | |]; try discriminate. cbn [rbind] in E.
    destruct (d_server_search_list _ _ (jr_del req) _) as [rd| | |]; try discriminate. cbn [rbind] in E.
    destruct (q_cache _ _ _ Q (jn_kwtok S kw)) as (l & El & Hl). rewrite El in E. cbn [rbind] in E.
    injection E as <- <-. eexists. split; [|split; [reflexivity|reflexivity]]. apply Forall_app. split; [by apply filter_ok|apply decrypt_ok].
  Qed.
  Lemma q_par k c s kw n req f s' calls : (k + 1 < 2 ^ 32)%N -> q_inv k c s -> jr_token req = jn_kwtok S kw ->
    j_par_finish S s req n f = Ok (s', calls) ->
    exists l, Forall (cached_ok (jn_tagsize S)) l /\ js_cache s' = list_put (js_cache s) (jn_kwtok S kw) l /\
      ((0 < n)%N -> j_par_list n calls = l.*1).
  Proof.
    intros Hk Q Et E. unfold j_par_finish in E. rewrite Et in E.
    destruct (q_cache _ _ _ Q (jn_kwtok S kw)) as (l & El & Hl). rewrite El in E. cbn [rbind] in E.
    destruct (d_server_search _ _ (jr_ins req) _) as [ri| | |]; try discriminate. cbn [rbind] in E.
    injection E as <- <-. eexists. split; [|split; [reflexivity|]].
    - apply Forall_app. split; [apply decrypt_ok|by apply filter_ok].
    - intros Hn. rewrite fmap_app. by apply par_list_eq.
  Qed.

  Lemma q_run c s ops ans c' s' : j_run S c s ops ans c' s' -> forall k,
    (k + N.of_nat (length ops) < 2 ^ 32)%N -> q_inv k c s -> q_inv (k + N.of_nat (length ops)) c' s'.
  Proof.
    induction 1 as [c s|c s kw i ops ans c' s' _ IH|c s kw i ops ans c' s' _ IH|c s kw s1 a ops ans c' s' E _ IH
      |c s kw n f0 f s1 calls ops ans c' s' E0 Hst Hfin E _ IH|c s kw ops ans c' s' _ IH]; intros k Hk Q;
      [eapply q_mono; [|exact Q]; lia|..]; cbn [length] in *;
      replace (k + N.of_nat (Datatypes.S (length ops)))%N with ((k + 1) + N.of_nat (length ops))%N by lia.
    - apply IH; [lia|]. eapply (q_update k c s _ _ kw); [lia|done|..]; unfold j_insertion_request, d_insertion_request, ctr_get_and_increment; try done.
      intros m Hm. cbn [fst jc_ins jc_del]. by rewrite lookup_insert_ne.
    - apply IH; [lia|]. eapply (q_update k c s _ _ kw); [lia|done|..]; unfold j_removal_request, d_insertion_request, ctr_get_and_increment; try done.
      intros m Hm. cbn [fst jc_ins jc_del]. by rewrite lookup_insert_ne.
    - apply IH; [lia|]. destruct (q_client k c s kw) as [Q' _]; [lia|done|].
      destruct (q_seq k c s kw (j_search_request S c kw).2 s1 a ltac:(lia) Q eq_refl E) as (l & Hl & Ec & _). by eapply cache_put_ok.
    - apply IH; [lia|]. destruct (q_client k c s kw) as [Q' _]; [lia|done|].
      destruct (q_par k c s kw n (j_search_request S c kw).2 f s1 calls ltac:(lia) Q eq_refl E) as (l & Hl & Ec & _). by eapply cache_put_ok.
    - apply IH; [lia|]. destruct (q_client k c s kw) as [Q' _]; [lia|done|]. done.
  Qed.

  Lemma filter_none (l : list cached) : j_filter_cache S [] l = l.
  Proof.
    unfold j_filter_cache. induction l as [|x l IH]; [done|]. rewrite filter_cons_True; [by f_equal|]. apply not_elem_of_nil.
  Qed.

  (** A search with nothing new. *)
  Lemma zero_seq s (req : j_search S) l :
    ds_count (jr_ins req) = 0%N -> ds_count (jr_del req) = 0%N ->
    list_get (jn_tagsize S) (js_cache s) (jr_token req) = Ok l ->
    j_server_search S s req = Ok (JServer (js_ins s) (js_del s) (list_put (js_cache s) (jr_token req) l), l.*1).
  Proof.
    intros Zi Zd El. unfold j_server_search, d_server_search_list, d_server_search. rewrite Zi, Zd. simpl.
    rewrite El. cbn [rbind]. rewrite filter_none. unfold j_decrypt. simpl. by rewrite app_nil_r.
  Qed.
  Lemma zero_par s (req : j_search S) l n f0 f s' calls : (0 < n)%N ->
    ds_count (jr_ins req) = 0%N -> ds_count (jr_del req) = 0%N ->
    list_get (jn_tagsize S) (js_cache s) (jr_token req) = Ok l ->
    j_par_start S s req n = Ok f0 -> rtc (d_step (jn_del S) true) f0 f ->
    j_par_finish S s req n f = Ok (s', calls) ->
    s' = JServer (js_ins s) (js_del s) (list_put (js_cache s) (jr_token req) l) /\ j_par_list n calls = l.*1.
  Proof.
    intros Hn Zi Zd El E0 Hst E. unfold j_par_start, d_search_parallel in E0. rewrite Zd in E0. simpl in E0. injection E0 as <-.
    assert (Ef : f = DPar (js_del s) [] []).
    { apply rtc_inv in Hst as [<-|(y & Hy & _)]; [done|]. exfalso. inversion Hy as
        [? pre ? ? ? ? ? ? ? ? ? ? Ex|? pre ? ? ? ? ? ? ? ? ? ? ? ? Ex|? pre ? ? ? ? ? ? ? ? ? ? ? ? Ex|? pre ? ? ? ? ? ? ? ? Ex]; by destruct pre. }
    subst f. unfold j_par_finish in E. rewrite El in E. cbn [rbind dp_log dp_db] in E.
    assert (En : d_result_list n [] = []).
    { unfold d_result_list. induction (N.of_nat <$> seq 0 (N.to_nat n)) as [|x xs IH]; [done|]. rewrite bind_cons, IH. done. }
    rewrite En in E. unfold d_server_search in E. rewrite Zi in E. simpl in E. injection E as <- <-.
    rewrite filter_none. split; [done|].
    pose proof (par_list_eq n l [] Hn) as P. rewrite fmap_nil, app_nil_r in P. rewrite app_nil_r. exact P.
  Qed.
End repeated.
