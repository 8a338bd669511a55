(** Servers that choose the operations of the client as they go (C123). *)
From stdpp Require Import prelude gmap.
From Coq Require Import ZArith NArith Lia.
From Verif Require Import Base EncModel KvModel SophosModel SophosSpec HideSpec HideProofs DianaModel DianaSpec HideDSpec
  UtilsModel JanusModel JanusSpec JanusProofs HideJSpec AdaptSpec AdaptProofs Props_Hide Props_HideD Props_HideJ.
Local Open Scope nat_scope.

(** ** Sophos *)
Lemma so_view_take S : forall h1 h2 c db, take (length h1) (so_view S c db (h1 ++ h2)) = so_view S c db h1.
Proof.
  induction h1 as [|[kw i d|kw] h1 IH]; intros h2 c db; cbn [app length so_view take]; [by rewrite take_0| |]; f_equal; apply IH.
Qed.
Lemma so_loop_ext S f g db : (forall k x, f k x = g k x) -> forall n k t,
  so_search_loop (with_prf S f) n db k t = so_search_loop (with_prf S g) n db k t.
Proof.
  intros E. induction n as [|n IH]; intros k t; [done|]. cbn [so_search_loop]. f_equal; [|apply IH].
  unfold so_access, gen_update_token_masks. cbn [with_prf so_prf]. by rewrite !E.
Qed.
Lemma so_view_ext S f g : (forall k x, f k x = g k x) -> forall h c db,
  so_view (with_prf S f) c db h = so_view (with_prf S g) c db h.
Proof.
  intros E. induction h as [|[kw i d|kw] h IH]; intros c db; cbn [so_view]; [done| |].
  - assert (Er : so_insertion_request (with_prf S f) c kw i = so_insertion_request (with_prf S g) c kw i).
    { unfold so_insertion_request, gen_update_token_masks. destruct (ctr_get_and_increment c kw) as [c' k].
      cbn [with_prf so_prf]. by rewrite !E. }
    rewrite Er. f_equal. apply IH.
  - assert (Er : so_search_request (with_prf S f) c kw = so_search_request (with_prf S g) c kw) by done.
    rewrite Er. f_equal; [|apply IH]. f_equal. by apply so_loop_ext.
Qed.

(** Whatever the server chooses from what it sees, with questions to the random function, it
    sees the same in the game of the left operations as in that of the right ones, up to a
    bijection of the random functions. *)
Theorem C123_sophos :
  forall (S : sophos) choose n,
    tdp_ok S ->
    let play right f := game (so_game_view S) so_ask choose right f n [] in
    (forall right f, prf_ok f -> so_allowed S (play right f)) ->
    exists there back, bijection there back /\
      forall f, prf_ok f ->
        transcript (so_game_view S) so_ask false f (play false f) =
        transcript (so_game_view S) so_ask true (there f) (play true (there f)).
Proof.
  intros S choose n Ht play Ha.
  assert (H1 : forall f h1 h2, take (length h1) (so_game_view S f (h1 ++ h2)) = so_game_view S f h1)
    by (intros; apply so_view_take).
  assert (H2 : forall f g h, (forall k x, f k x = g k x) -> so_game_view S f h = so_game_view S g h)
    by (intros; by apply so_view_ext).
  assert (H3 : forall f g q, (forall k x, f k x = g k x) -> so_ask f q = so_ask g q) by (intros f g q E; apply E).
  assert (HB : forall ms, so_allowed S ms -> bijection (prf_there S (done_by false ms) (done_by true ms)) (prf_back S (done_by false ms) (done_by true ms))).
  { intros ms [Hl Hs Hq]. destruct (Hs false) as (? & ? & ?), (Hs true) as (? & ? & ?). by apply prf_bijection. }
  assert (H4 : forall ms f, so_allowed S ms -> prf_ok f ->
    prf_ok (prf_there S (done_by false ms) (done_by true ms) f) /\ prf_ok (prf_back S (done_by false ms) (done_by true ms) f)).
  { intros ms f Hm. by apply HB. }
  assert (H5 : forall ms f, so_allowed S ms -> prf_ok f ->
    (forall k x, prf_back S (done_by false ms) (done_by true ms) (prf_there S (done_by false ms) (done_by true ms) f) k x = f k x) /\
    (forall k x, prf_there S (done_by false ms) (done_by true ms) (prf_back S (done_by false ms) (done_by true ms) f) k x = f k x)).
  { intros ms f Hm Hf. destruct (HB ms Hm) as [_ Hi]. split; intros k x; by apply Hi. }
  assert (H6 : forall ms f, so_allowed S ms -> prf_ok f ->
    so_game_view S f (done_by false ms) = so_game_view S (prf_there S (done_by false ms) (done_by true ms) f) (done_by true ms)).
  { intros ms f [Hl Hs Hq] Hf. destruct (Hs false) as (? & ? & ?), (Hs true) as (? & ? & ?).
    apply (Props_Hide.view_same S (done_by false ms) (done_by true ms) Ht Hl ltac:(done) ltac:(done) ltac:(done) ltac:(done) ltac:(done) ltac:(done)
      f Hf (done_by false ms) [] []); done. }
  assert (H7 : forall ms f q, so_allowed S ms -> prf_ok f -> Ask q ∈ ms ->
    so_ask (prf_there S (done_by false ms) (done_by true ms) f) q = so_ask f q).
  { intros ms f [k x] [Hl Hs Hq] Hf Hin. unfold so_ask. cbn [fst snd].
    destruct (Hs false) as (? & ? & ?), (Hs true) as (? & ? & ?). pose proof (Hq false k x Hin). pose proof (Hq true k x Hin). by apply prf_there_out. }
  assert (HA : forall f, prf_ok f -> so_allowed S (play false f) /\ so_allowed S (play true f)) by (intros; split; by apply Ha).
  set (T := prf_there S) in *. set (B := prf_back S) in *.
  exists (game_there (so_game_view S) so_ask T choose n), (game_back (so_game_view S) so_ask B choose n).
  split; [split|].
  - intros f Hf. by eapply (game_ok (so_game_view S) so_ask prf_ok T B (so_allowed S)).
  - intros f Hf k x.
    destruct (game_inv (so_game_view S) so_ask prf_ok (fun f g => forall k x, f k x = g k x) T B (so_allowed S) H1 H2 H3 H4 H5 H6 H7 choose n HA f Hf) as [I1 I2].
    split; [apply I1|apply I2].
  - intros f Hf. by eapply (game_transcript (so_game_view S) so_ask prf_ok T (so_allowed S)).
Qed.
Print Assumptions C123_sophos.

(** ** Diana *)
Lemma d_view_take D g : forall h1 h2 c db, take (length h1) (d_view D g c db (h1 ++ h2)) = d_view D g c db h1.
Proof.
  induction h1 as [|[kw doc d|l|kw del] h1 IH]; intros h2 c db; cbn [app length d_view take]; [by rewrite take_0|..]; f_equal; [apply IH..|].
  destruct (d_server_search_list _ _ _ _); [apply IH|by rewrite take_nil..].
Qed.
Section ext.
  Variables (D : diana) (g g' : bytes -> bytes).
  Hypothesis E : forall st, g st = g' st.
  Lemma token_mask_ext st : d_token_mask (with_prg D g) st = d_token_mask (with_prg D g') st.
  Proof. unfold d_token_mask. cbn [with_prg d_prg d_len]. by rewrite E. Qed.
  Lemma make_update_ext kw n doc : d_make_update (with_prg D g) kw n doc = d_make_update (with_prg D g') kw n doc.
  Proof.
    unfold d_make_update. cbn [with_prg d_leaf d_root]. change (d_keyword_index (with_prg D g) kw) with (d_keyword_index (with_prg D g') kw).
    by rewrite token_mask_ext.
  Qed.
  Lemma insertion_request_ext c kw doc : d_insertion_request (with_prg D g) c kw doc = d_insertion_request (with_prg D g') c kw doc.
  Proof. unfold d_insertion_request. destruct (ctr_get_and_increment c kw). by rewrite make_update_ext. Qed.
  Lemma bulk_request_ext c l : d_bulk_request (with_prg D g) c l = d_bulk_request (with_prg D g') c l.
  Proof.
    unfold d_bulk_request. destruct (d_get_counters c l) as [c' cl]. f_equal. apply list_fmap_ext. intros i x _. apply make_update_ext.
  Qed.
  Lemma search_loop_ext del : forall l db, d_search_loop (with_prg D g) db l del = d_search_loop (with_prg D g') db l del.
  Proof.
    induction l as [|[i st] l IH]; intros db; [done|]. cbn [d_search_loop]. unfold d_get_unmask. rewrite token_mask_ext.
    destruct (d_token_mask (with_prg D g') st) as [ut mask]. destruct (d_retrieve_entry db ut del) as [db' r]. by rewrite IH.
  Qed.
  Lemma server_search_ext db (token : bytes) (con : option (d_con D)) (count : N) del :
    d_server_search_list (with_prg D g) db (@DSearch (with_prg D g) token con count) del =
    d_server_search_list (with_prg D g') db (@DSearch (with_prg D g') token con count) del.
  Proof.
    unfold d_server_search_list, d_server_search. cbn [ds_count ds_con]. destruct (count =? 0)%N; [done|]. destruct con as [con|]; [|done].
    unfold d_eval_range. cbn [with_prg d_max_leaf d_eval]. destruct (_ || _); [done|]. cbn [rbind]. by rewrite search_loop_ext.
  Qed.
End ext.
Lemma d_view_ext D g g' : (forall st, g st = g' st) -> forall h c db, d_view D g c db h = d_view D g' c db h.
Proof.
  intros E. induction h as [|[kw doc d|l|kw del] h IH]; intros c db; cbn [d_view]; [done|..].
  - rewrite (insertion_request_ext D g g' E). f_equal. apply IH.
  - rewrite (bulk_request_ext D g g' E). f_equal. apply IH.
  - unfold d_search_request. destruct (ctr_get c kw) as [k|].
    + rewrite (server_search_ext D g g' E). f_equal. destruct (d_server_search_list _ _ _ _); [apply IH|done..].
    + rewrite (server_search_ext D g g' E). f_equal. destruct (d_server_search_list _ _ _ _); [apply IH|done..].
Qed.
Lemma d_facts (D : diana) h h' :
  rcprf_ok D -> d_same_leakage h h' -> distinct_leaves D h -> distinct_leaves D h' ->
  few_leaves h -> few_leaves h' -> docs_bytes (d_len D) h -> docs_bytes (d_len D) h' ->
  prg_bijection (16 + d_len D) (g_there D h h') (g_back D h h') /\
  (forall g st, ~ hidden_leaf D h st -> ~ hidden_leaf D h' st -> g_there D h h' g st = g st) /\
  (forall g, prg_ok (16 + d_len D) g -> d_view D g ∅ ∅ h = d_view D (g_there D h h' g) ∅ ∅ h').
Proof.
  intros Hr Hl Hd Hd' Hf Hf' Hi Hi'. split; [|split].
  - by apply g_bijection.
  - intros g st. by apply g_there_out.
  - intros g Hok. apply (Props_HideD.view_same D h h' Hr Hl Hd Hd' Hf Hf' Hi Hi' g Hok h h' [] []); [done|].
    split; try done. by apply leak_atoms.
Qed.

Theorem C123_diana :
  forall (D : diana) choose n,
    rcprf_ok D ->
    let play right g := game (d_game_view D) d_ask choose right g n [] in
    (forall right g, prg_ok (16 + d_len D) g -> d_allowed D (play right g)) ->
    exists there back, prg_bijection (16 + d_len D) there back /\
      forall g, prg_ok (16 + d_len D) g ->
        transcript (d_game_view D) d_ask false g (play false g) =
        transcript (d_game_view D) d_ask true (there g) (play true (there g)).
Proof.
  intros D choose n Hr play Ha.
  set (ok := prg_ok (16 + d_len D)) in *. set (T := g_there D). set (B := g_back D).
  set (same := fun f g : bytes -> bytes => forall st, f st = g st).
  assert (HF : forall ms, d_allowed D ms ->
    let h := done_by false ms in let h' := done_by true ms in
    prg_bijection (16 + d_len D) (T h h') (B h h') /\
    (forall g st, ~ hidden_leaf D h st -> ~ hidden_leaf D h' st -> T h h' g st = g st) /\
    (forall g, ok g -> d_game_view D g h = d_game_view D (T h h' g) h')).
  { intros ms [Hl Hs Hq]. destruct (Hs false) as (? & ? & ?), (Hs true) as (? & ? & ?). by apply d_facts. }
  assert (H1 : forall f h1 h2, take (length h1) (d_game_view D f (h1 ++ h2)) = d_game_view D f h1) by (intros; apply d_view_take).
  assert (H2 : forall f g h, same f g -> d_game_view D f h = d_game_view D g h) by (intros; by apply d_view_ext).
  assert (H3 : forall f g q, same f g -> d_ask f q = d_ask g q) by (intros f g q E; apply E).
  assert (H4 : forall ms f, d_allowed D ms -> ok f -> ok (T (done_by false ms) (done_by true ms) f) /\ ok (B (done_by false ms) (done_by true ms) f)).
  { intros ms f Hm. by apply (HF ms Hm). }
  assert (H5 : forall ms f, d_allowed D ms -> ok f ->
    same (B (done_by false ms) (done_by true ms) (T (done_by false ms) (done_by true ms) f)) f /\
    same (T (done_by false ms) (done_by true ms) (B (done_by false ms) (done_by true ms) f)) f).
  { intros ms f Hm Hf. destruct (HF ms Hm) as [[_ Hi] _]. split; intros st; by apply Hi. }
  assert (H6 : forall ms f, d_allowed D ms -> ok f ->
    d_game_view D f (done_by false ms) = d_game_view D (T (done_by false ms) (done_by true ms) f) (done_by true ms)).
  { intros ms f Hm Hf. by apply (HF ms Hm). }
  assert (H7 : forall ms f q, d_allowed D ms -> ok f -> Ask q ∈ ms -> d_ask (T (done_by false ms) (done_by true ms) f) q = d_ask f q).
  { intros ms f q Hm Hf Hin. destruct (HF ms Hm) as (_ & Ho & _). apply Ho; by apply (da_ask _ _ Hm). }
  assert (HA : forall f, ok f -> d_allowed D (play false f) /\ d_allowed D (play true f)) by (intros; split; by apply Ha).
  exists (game_there (d_game_view D) d_ask T choose n), (game_back (d_game_view D) d_ask B choose n).
  split; [split|].
  - intros f Hf. by eapply (game_ok (d_game_view D) d_ask ok T B (d_allowed D)).
  - intros f Hf st. destruct (game_inv (d_game_view D) d_ask ok same T B (d_allowed D) H1 H2 H3 H4 H5 H6 H7 choose n HA f Hf) as [I1 I2].
    split; [apply I1|apply I2].
  - intros f Hf. by eapply (game_transcript (d_game_view D) d_ask ok T (d_allowed D)).
Qed.
Print Assumptions C123_diana.

(** ** Janus *)
Lemma j_view_take S gi gd : forall h1 h2 c s, take (length h1) (j_view S gi gd c s (h1 ++ h2)) = j_view S gi gd c s h1.
Proof.
  induction h1 as [|[kw i d|kw i d|kw] h1 IH]; intros h2 c s; cbn [app length j_view take]; [by rewrite take_0|..]; f_equal; [apply IH..|].
  destruct (j_server_search _ _ _); [apply IH|by rewrite take_nil..].
Qed.
Lemma j_insertion_ext S gi gd gi' gd' : (forall st, gi st = gi' st) -> forall c kw i,
  j_insertion_request (with_gens S gi gd) c kw i = j_insertion_request (with_gens S gi' gd') c kw i.
Proof.
  intros E c kw i. unfold j_insertion_request, j_tag. cbn [with_gens jn_ins pe_enc jn_pekey jn_tag]. by rewrite (insertion_request_ext (jn_ins S) gi gi' E).
Qed.
Lemma j_removal_ext S gi gd gi' gd' : (forall st, gd st = gd' st) -> forall c kw i,
  j_removal_request (with_gens S gi gd) c kw i = j_removal_request (with_gens S gi' gd') c kw i.
Proof.
  intros E c kw i. unfold j_removal_request, j_tag. cbn [with_gens jn_del pe_punct jn_pekey jn_tag]. by rewrite (insertion_request_ext (jn_del S) gd gd' E).
Qed.
Lemma j_view_ext S gi gd gi' gd' : (forall st, gi st = gi' st) -> (forall st, gd st = gd' st) -> forall h c s,
  j_view S gi gd c s h = j_view S gi' gd' c s h.
Proof.
  intros Ei Ed. induction h as [|[kw i d|kw i d|kw] h IH]; intros c s; cbn [j_view]; [done|..].
  - rewrite (j_insertion_ext S gi gd gi' gd' Ei). f_equal. apply IH.
  - rewrite (j_removal_ext S gi gd gi' gd' Ed). f_equal. apply IH.
  - unfold j_search_request, j_server_search. cbn [fst snd jr_ins jr_del jr_token jr_share with_gens jn_ins jn_del].
    unfold d_search_request.
    destruct (ctr_get (jc_ins c) _) as [k|], (ctr_get (jc_del c) _) as [k'|]; cbn [ds_count ds_con ds_token];
      rewrite (server_search_ext (jn_ins S) gi gi' Ei), (server_search_ext (jn_del S) gd gd' Ed);
      (f_equal; destruct (_ <~ _; _); [apply IH|done..]).
Qed.

Definition ji_there S h h' := g_there (jn_ins S) (ins_ops S j_hist0 h) (ins_ops S j_hist0 h').
Definition ji_back S h h' := g_back (jn_ins S) (ins_ops S j_hist0 h) (ins_ops S j_hist0 h').
Definition jr_there S h h' := g_there (jn_del S) (del_ops S j_hist0 h) (del_ops S j_hist0 h').
Definition jr_back S h h' := g_back (jn_del S) (del_ops S j_hist0 h) (del_ops S j_hist0 h').
Lemma j_facts (S : janus) h h' :
  j_hide_ok S -> j_same_leakage h h' -> j_distinct_leaves S h -> j_distinct_leaves S h' ->
  (N.of_nat (length h) < 2 ^ 32)%N ->
  prg_bijection (16 + d_len (jn_ins S)) (ji_there S h h') (ji_back S h h') /\
  prg_bijection (16 + d_len (jn_del S)) (jr_there S h h') (jr_back S h h') /\
  (forall g st, ~ j_hidden_ins S h st -> ~ j_hidden_ins S h' st -> ji_there S h h' g st = g st) /\
  (forall g st, ~ j_hidden_rem S h st -> ~ j_hidden_rem S h' st -> jr_there S h h' g st = g st) /\
  (forall gi gd, prg_ok (16 + d_len (jn_ins S)) gi -> prg_ok (16 + d_len (jn_del S)) gd ->
     j_view S gi gd j_new_client j_new_server h =
     j_view S (ji_there S h h' gi) (jr_there S h h' gd) j_new_client j_new_server h').
Proof.
  intros Hok Hl [Hd1 Hd2] [Hd1' Hd2'] Hn. pose proof (leak_length _ _ Hl) as Hlen.
  assert (small_h 0 j_hist0) as Hs0 by (split_and!; intros; simpl; lia).
  assert (agree_all j_hist0 j_hist0 h h') as Ha by (intros kw _; split_and!; done).
  assert (jd_inv 0 j_hist0 j_new_client ∅ ∅) as I0.
  { split; [done|done| |]; intros kw e _; cbn [j_new_client jc_ins jc_del]; by rewrite !lookup_empty. }
  destruct (d_facts (jn_ins S) (ins_ops S j_hist0 h) (ins_ops S j_hist0 h')) as (Hb & Ho & Hv).
  { apply Hok. } { by apply (ins_leak S h h' j_hist0 j_hist0 0). } { done. } { done. }
  { apply (few_ops S (ins_ops S)); [by left|done]. } { apply (few_ops S (ins_ops S)); [by left|by rewrite <- Hlen]. }
  { by apply ins_docs. } { by apply ins_docs. }
  destruct (d_facts (jn_del S) (del_ops S j_hist0 h) (del_ops S j_hist0 h')) as (Hb' & Ho' & Hv').
  { apply Hok. } { by apply (del_leak S h h' j_hist0 j_hist0 0). } { done. } { done. }
  { apply (few_ops S (del_ops S)); [by right|done]. } { apply (few_ops S (del_ops S)); [by right|by rewrite <- Hlen]. }
  { by apply del_docs. } { by apply del_docs. }
  split; [done|]. split; [done|]. split; [|split].
  - intros g st H1 H2. apply Ho; intros Hh; [apply H1|apply H2]; apply ins_hidden; congruence || done.
  - intros g st H1 H2. apply Ho'; intros Hh; [apply H1|apply H2]; apply del_hidden; congruence || done.
  - intros gi gd Hgi Hgd. rewrite (view_merge S gi gd h 0 j_hist0 _ ∅ ∅ _ Hn I0).
    rewrite (view_merge S (ji_there S h h' gi) (jr_there S h h' gd) h' 0 j_hist0 _ ∅ ∅ _ ltac:(rewrite <- Hlen; exact Hn) I0).
    cbn [j_new_server js_ins js_del js_cache]. rewrite (Hv gi Hgi), (Hv' gd Hgd). by rewrite (frames_same S h h' _ _ Hl Ha).
Qed.
Lemma done_by_le {O Q} b (ms : list (move O Q)) : length (done_by b ms) <= length ms.
Proof. unfold done_by. induction ms as [|[o o'|q] ms IH]; csimpl; lia. Qed.

Theorem C123_janus :
  forall (S : janus) choose n,
    j_hide_ok S ->
    let ok := gens_ok (16 + d_len (jn_ins S)) (16 + d_len (jn_del S)) in
    let play right g := game (j_game_view S) j_ask choose right g n [] in
    (forall right g, ok g -> j_allowed S (play right g)) ->
    exists there back, gens_bijection (16 + d_len (jn_ins S)) (16 + d_len (jn_del S)) there back /\
      forall g, ok g ->
        transcript (j_game_view S) j_ask false g (play false g) =
        transcript (j_game_view S) j_ask true (there g) (play true (there g)).
Proof.
  intros S choose n Hr ok play Ha.
  set (T := fun h h' (g : j_gens) => (ji_there S h h' g.1, jr_there S h h' g.2)).
  set (B := fun h h' (g : j_gens) => (ji_back S h h' g.1, jr_back S h h' g.2)).
  set (same := fun f g : j_gens => forall q, j_ask f q = j_ask g q).
  assert (HS : forall f g : j_gens, same f g -> (forall st, f.1 st = g.1 st) /\ (forall st, f.2 st = g.2 st)).
  { intros f g E. split; intros st; [apply (E (false, st))|apply (E (true, st))]. }
  pose proof (fun ms (Hm : j_allowed S ms) => j_facts S (done_by false ms) (done_by true ms) Hr (ja_leak _ _ Hm)
    (ja_side _ _ Hm false) (ja_side _ _ Hm true)
    ltac:(pose proof (ja_few _ _ Hm); pose proof (done_by_le false ms); lia)) as HF.
  assert (H1 : forall f h1 h2, take (length h1) (j_game_view S f (h1 ++ h2)) = j_game_view S f h1) by (intros; apply j_view_take).
  assert (H2 : forall f g h, same f g -> j_game_view S f h = j_game_view S g h).
  { intros f g h E. destruct (HS f g E). by apply j_view_ext. }
  assert (H3 : forall f g q, same f g -> j_ask f q = j_ask g q) by (intros f g q E; apply E).
  assert (H4 : forall ms f, j_allowed S ms -> ok f -> ok (T (done_by false ms) (done_by true ms) f) /\ ok (B (done_by false ms) (done_by true ms) f)).
  { intros ms f Hm [Hf1 Hf2]. destruct (HF ms Hm) as ([Hi _] & [Hi' _] & _).
    destruct (Hi _ Hf1), (Hi' _ Hf2). done. }
  assert (H5 : forall ms f, j_allowed S ms -> ok f ->
    same (B (done_by false ms) (done_by true ms) (T (done_by false ms) (done_by true ms) f)) f /\
    same (T (done_by false ms) (done_by true ms) (B (done_by false ms) (done_by true ms) f)) f).
  { intros ms f Hm [Hf1 Hf2]. destruct (HF ms Hm) as ([_ Hi] & [_ Hi'] & _).
    split; intros [[] st]; unfold j_ask; cbn [fst snd T B]; first [by apply Hi|by apply Hi']. }
  assert (H6 : forall ms f, j_allowed S ms -> ok f ->
    j_game_view S f (done_by false ms) = j_game_view S (T (done_by false ms) (done_by true ms) f) (done_by true ms)).
  { intros ms f Hm [Hf1 Hf2]. destruct (HF ms Hm) as (_ & _ & _ & _ & Hv). by apply Hv. }
  assert (H7 : forall ms f q, j_allowed S ms -> ok f -> Ask q ∈ ms -> j_ask (T (done_by false ms) (done_by true ms) f) q = j_ask f q).
  { intros ms f [[] st] Hm Hf Hin; destruct (HF ms Hm) as (_ & _ & Ho & Ho' & _); unfold j_ask; cbn [fst snd T].
    - apply Ho'; by apply (ja_ask _ _ Hm).
    - apply Ho; by apply (ja_ask _ _ Hm). }
  assert (HA : forall f, ok f -> j_allowed S (play false f) /\ j_allowed S (play true f)) by (intros; split; by apply Ha).
  exists (game_there (j_game_view S) j_ask T choose n), (game_back (j_game_view S) j_ask B choose n).
  split; [split|].
  - intros f Hf. by eapply (game_ok (j_game_view S) j_ask ok T B (j_allowed S)).
  - intros f Hf q. destruct (game_inv (j_game_view S) j_ask ok same T B (j_allowed S) H1 H2 H3 H4 H5 H6 H7 choose n HA f Hf) as [I1 I2].
    split; [apply I1|apply I2].
  - intros f Hf. by eapply (game_transcript (j_game_view S) j_ask ok T (j_allowed S)).
Qed.
Print Assumptions C123_janus.

(** ** Questions that are not allowed *)
(** With a question about an input to hide, the games can be told apart. *)
Theorem C123_ask_refuted :
  exists (S : sophos) choose n g,
    tdp_ok S /\ prf_ok g /\
    let play right f := game (so_game_view S) so_ask choose right f n [] in
    (forall right f, let ms := play right f in same_leakage (done_by false ms) (done_by true ms) /\
       forall b, distinct_inputs S (done_by b ms) /\ few_insertions (done_by b ms) /\ docs64 (done_by b ms)) /\
    forall f, prf_ok f ->
      transcript (so_game_view S) so_ask false f (play false f) <>
      transcript (so_game_view S) so_ask true g (play true g).
Proof.
  exists ex_hide, (fun seen => match seen with
    | [] => Some (Play (SoIns [1%N] 5 true) (SoIns [2%N] 5 true))
    | [_] => Some (Ask ([1%N], [1%N; 48%N]))
    | _ => None end), 3, (fun k x => replicate 16 (if decide (k = [1%N]) then 1%N else 0%N)).
  assert (Hp : forall right f, game (so_game_view ex_hide) so_ask (fun seen => match seen with
    | [] => Some (Play (SoIns [1%N] 5 true) (SoIns [2%N] 5 true))
    | [_] => Some (Ask ([1%N], [1%N; 48%N]))
    | _ => None end) right f 3 [] = [Play (SoIns [1%N] 5 true) (SoIns [2%N] 5 true); Ask ([1%N], [1%N; 48%N])]).
  { intros [] f; reflexivity. }
  split; [done|]. split. { intros k x. split; [done|]. apply Forall_replicate. by case_decide. }
  cbn zeta. split.
  - intros right f. rewrite Hp. cbn [done_by omap list_omap]. split.
    + cbn. split; [done|]. split; [|done]. intros [H|H]; by apply elem_of_nil in H.
    + intros b. split; [|split].
      * apply ex_distinct. destruct b; (apply Forall_cons; split; [by auto|]); by apply Forall_nil.
      * intros kw. destruct b; unfold insertions; csimpl; case_decide; cbn; lia.
      * destruct b; by repeat constructor.
  - intros f Hf. rewrite !Hp. unfold transcript. cbn [done_by omap list_omap]. intros E.
    apply (f_equal (fun l => match l with [Saw (SeenUpdate u); Told a] => bool_decide (su_token u = a) | _ => true end)) in E.
    cbn in E. rewrite bool_decide_eq_true_2 in E by done. vm_compute in E. discriminate E.
Qed.
Print Assumptions C123_ask_refuted.

(** ** Examples *)
(** Servers that choose the second turn from what they see of the first one: another operation
    or a question. *)
Definition ex_choose : list (sight so_seen bytes) -> option (move so_op (bytes * bytes)) := fun seen =>
  match seen with
  | [] => Some (Play (SoIns [1%N] 5 true) (SoIns [2%N] 6 true))
  | [Saw (SeenUpdate u)] =>
      if decide (head (su_token u) = Some 0%N) then Some (Play (SoFind [3%N]) (SoFind [3%N])) else Some (Ask ([3%N], [3%N]))
  | _ => None
  end.
Lemma ex_few h : length h <= 4 -> few_insertions h.
Proof.
  intros Hh kw. assert (length (insertions kw h) <= length h); [|lia]. clear Hh.
  induction h as [|[k i d|k] h IH]; cbn [length]; [done| |unfold insertions in *; csimpl; lia].
  unfold insertions in *. csimpl. case_decide; cbn [length]; lia.
Qed.
Lemma ex_turns right f : let ms := game (so_game_view ex_hide) so_ask ex_choose right f 2 [] in
  ms = [Play (SoIns [1%N] 5 true) (SoIns [2%N] 6 true); Play (SoFind [3%N]) (SoFind [3%N])] \/
  ms = [Play (SoIns [1%N] 5 true) (SoIns [2%N] 6 true); Ask ([3%N], [3%N])].
Proof.
  cbn [game ex_choose transcript done_by omap list_omap sights app].
  destruct right; cbn; (destruct (decide _); [by left|by right]).
Qed.
Lemma ex_hidden_keys h k x : Forall (fun o => match o with SoIns kw _ _ => kw = [1%N] \/ kw = [2%N] | SoFind _ => True end) h ->
  hidden_input ex_hide h k x -> k = [1%N] \/ k = [2%N].
Proof.
  intros Hh (kw & n & b & (p & i & d & q & -> & _ & _) & -> & _).
  apply Forall_app in Hh as [_ Hh]. apply Forall_cons in Hh as [[->| ->] _]; auto.
Qed.
Example C123_ex :
  tdp_ok ex_hide /\
  (forall right f, prf_ok f -> so_allowed ex_hide (game (so_game_view ex_hide) so_ask ex_choose right f 2 [])) /\
  (exists f, prf_ok f /\ length (done_by false (game (so_game_view ex_hide) so_ask ex_choose false f 2 [])) = 1) /\
  (exists f, prf_ok f /\ length (done_by false (game (so_game_view ex_hide) so_ask ex_choose false f 2 [])) = 2).
Proof.
  split; [done|]. split; [|split].
  - intros right f _. pose proof (ex_turns right f) as H. cbn zeta in H.
    assert (Hd : forall b ms, (ms = [Play (SoIns [1%N] 5 true) (SoIns [2%N] 6 true); Play (SoFind [3%N]) (SoFind [3%N])] \/
      ms = [Play (SoIns [1%N] 5 true) (SoIns [2%N] 6 true); Ask ([3%N], [3%N])]) ->
      Forall (fun o => match o with SoIns kw _ _ => kw = [1%N] \/ kw = [2%N] | SoFind _ => True end)
        (done_by b (ms : so_moves)) /\ few_insertions (done_by b ms) /\ docs64 (done_by b ms)).
    { intros b ms [->| ->]; cbn [done_by omap list_omap]; (split; [|split; [apply ex_few; cbn; lia|destruct b; by repeat constructor]]);
        destruct b; repeat (apply Forall_cons; split; [by auto|]); by apply Forall_nil. }
    split.
    + destruct H as [->| ->]; cbn.
      * split; [done|]. split; [|done].
        intros [E|E]; apply elem_of_list_singleton in E; discriminate E.
      * split; [done|]. split; [|done]. intros [E|E]; by apply elem_of_nil in E.
    + intros b. destruct (Hd b _ H) as (H1 & H2 & H3). split; [by apply ex_distinct|done].
    + intros b k x Hin Hh. destruct (Hd b _ H) as (H1 & _ & _). apply (ex_hidden_keys _ _ _ H1) in Hh.
      assert (k = [3%N]) as ->.
      { destruct H as [Hm|Hm]; rewrite Hm in Hin; repeat (apply elem_of_cons in Hin as [Hin|Hin]; [try discriminate Hin; by injection Hin|]);
          by apply elem_of_nil in Hin. }
      destruct Hh; discriminate.
  - exists (fun _ _ => replicate 16 1%N). split; [|by vm_compute]. intros k x. split; [done|]. by apply Forall_replicate.
  - exists (fun _ _ => replicate 16 0%N). split; [|by vm_compute]. intros k x. split; [done|]. by apply Forall_replicate.
Qed.

Definition ex_d_choose : list (sight (d_seen ex_hide_d) bytes) -> option (move d_op bytes) := fun seen =>
  match seen with
  | [] => Some (Play (DIns [1] [5; 5] true) (DIns [2] [6; 6] true))%N
  | [Saw (DSeenUpdates [u])] =>
      if decide (head (du_token u) = Some 0%N) then Some (Play (DFind [3%N] false) (DFind [3%N] false)) else Some (Ask [])
  | _ => None
  end.
Lemma ex_d_turns right g : let ms := game (d_game_view ex_hide_d) d_ask ex_d_choose right g 2 [] in
  ms = [Play (DIns [1] [5; 5] true) (DIns [2] [6; 6] true); Play (DFind [3] false) (DFind [3] false)]%N \/
  ms = [Play (DIns [1] [5; 5] true) (DIns [2] [6; 6] true); Ask []]%N.
Proof.
  cbn [game ex_d_choose transcript done_by omap list_omap sights app].
  destruct right; cbn; (destruct (decide _); [by left|by right]).
Qed.
Lemma ex_d_few h : length (d_atoms h) <= 4 -> few_leaves h.
Proof.
  intros Hh kw. assert (a_count kw (d_atoms h) <= length (d_atoms h)); [|lia]. clear Hh.
  induction (d_atoms h) as [|[k i|k] l IH]; cbn [length]; [done| |unfold a_count in *; csimpl; lia].
  unfold a_count in *. csimpl. case_decide; cbn [length]; lia.
Qed.
Example C123_diana_ex :
  rcprf_ok ex_hide_d /\
  (forall right g, prg_ok (16 + d_len ex_hide_d) g ->
     d_allowed ex_hide_d (game (d_game_view ex_hide_d) d_ask ex_d_choose right g 2 [])) /\
  (exists g, prg_ok (16 + d_len ex_hide_d) g /\
     length (done_by false (game (d_game_view ex_hide_d) d_ask ex_d_choose false g 2 [])) = 1) /\
  (exists g, prg_ok (16 + d_len ex_hide_d) g /\
     length (done_by false (game (d_game_view ex_hide_d) d_ask ex_d_choose false g 2 [])) = 2).
Proof.
  split; [split; done|]. split; [|split].
  - intros right g _. pose proof (ex_d_turns right g) as H. cbn zeta in H. split.
    + destruct H as [->| ->]; cbn.
      * split; [done|]. split; [|done]. intros [[x E]|[x E]]; apply elem_of_list_singleton in E; discriminate E.
      * split; [done|]. split; [|done]. intros [[x E]|[x E]]; by apply elem_of_nil in E.
    + intros b. destruct H as [->| ->]; cbn [done_by omap list_omap];
        (split; [apply ex_dleaves; destruct b; cbn; repeat (apply Forall_cons; split; [by auto|]); by apply Forall_nil|]);
        (split; [apply ex_d_few; destruct b; cbn; lia|]); intros kw doc E; destruct b; cbn in E;
        repeat (apply elem_of_cons in E as [E|E]; [try discriminate E; injection E as -> ->; (split; [done|by repeat constructor])|]);
        by apply elem_of_nil in E.
    + intros b st Hin (kw & n & _ & Hst).
      assert (st = []) as ->; [|discriminate Hst].
      destruct H as [Hm|Hm]; rewrite Hm in Hin; repeat (apply elem_of_cons in Hin as [Hin|Hin]; [try discriminate Hin; by injection Hin|]);
        by apply elem_of_nil in Hin.
  - exists (fun _ => replicate 18 1%N). split; [|by vm_compute]. intros st. split; [done|]. by apply Forall_replicate.
  - exists (fun _ => replicate 18 0%N). split; [|by vm_compute]. intros st. split; [done|]. by apply Forall_replicate.
Qed.

Definition ex_j_choose : list (sight (j_seen ex_hide_j) bytes) -> option (move jh_op (bool * bytes)) := fun seen =>
  match seen with
  | [] => Some (Play (HIns [1] 5 true) (HIns [2] 6 true))%N
  | [Saw (JSeenIns u)] =>
      if decide (head (du_token u) = Some 0%N) then Some (Play (HRem [1] 7 false) (HRem [4] 8 false))%N else Some (Ask (true, []))
  | _ => None
  end.
Lemma ex_j_turns right g : let ms := game (j_game_view ex_hide_j) j_ask ex_j_choose right g 2 [] in
  ms = [Play (HIns [1] 5 true) (HIns [2] 6 true); Play (HRem [1] 7 false) (HRem [4] 8 false)]%N \/
  ms = [Play (HIns [1] 5 true) (HIns [2] 6 true); Ask (true, [])]%N.
Proof.
  cbn [game ex_j_choose transcript done_by omap list_omap sights app].
  destruct right; cbn; (destruct (decide _); [by left|by right]).
Qed.
Example C123_janus_ex :
  j_hide_ok ex_hide_j /\
  (forall right g, gens_ok 18 18 g ->
     j_allowed ex_hide_j (game (j_game_view ex_hide_j) j_ask ex_j_choose right g 2 [])) /\
  (exists g, gens_ok 18 18 g /\
     length (done_by false (game (j_game_view ex_hide_j) j_ask ex_j_choose false g 2 [])) = 1) /\
  (exists g, gens_ok 18 18 g /\
     length (done_by false (game (j_game_view ex_hide_j) j_ask ex_j_choose false g 2 [])) = 2).
Proof.
  split; [apply C79_ex|]. split; [|split].
  - intros right g _. pose proof (ex_j_turns right g) as H. cbn zeta in H. split.
    + destruct H as [->| ->]; cbn; split_and!; try done; intros E; exfalso; destruct E as [E|E];
        by apply not_elem_of_nil in E || (apply elem_of_list_singleton in E).
    + intros b. destruct H as [->| ->], b; cbn [done_by omap list_omap]; split; apply ex_jleaves; short_atoms.
    + destruct H as [->| ->]; by vm_compute.
    + intros b st. split; intros Hin (p & kw & i & d & q & n & _ & _ & _ & Hst);
        (assert (st = []) as ->; [|discriminate Hst]);
        destruct H as [Hm|Hm]; rewrite Hm in Hin; repeat (apply elem_of_cons in Hin as [Hin|Hin]; [try discriminate Hin; by injection Hin|]);
        by apply elem_of_nil in Hin.
  - exists (fun _ => replicate 18 1%N, fun _ => replicate 18 1%N). split; [|by vm_compute].
    split; intros st; (split; [done|]); by apply Forall_replicate.
  - exists (fun _ => replicate 18 0%N, fun _ => replicate 18 0%N). split; [|by vm_compute].
    split; intros st; (split; [done|]); by apply Forall_replicate.
Qed.
