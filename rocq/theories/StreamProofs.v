(** Proofs about connections that may break. *)
From stdpp Require Import prelude gmap.
From Coq Require Import NArith Lia.
From Verif Require Import Base EncModel KvModel UtilsModel SophosModel DianaModel ConcModel ConcSpec ConcProofs
  PowerModel PowerSpec PowerProofs StreamModel StreamSpec.
Local Arguments N.modulo : simpl never.
Local Arguments N.pow : simpl never.
Local Arguments N.of_nat : simpl never.

Section numbered.
  Context {P : proto}.
  Notation entry := (bytes * p_doc P)%type.
  Notation ent := (bytes * nat * p_doc P)%type.
  Definition erase (x : ent) : entry := (x.1.1, x.2).
  (** The insertions of a list get the next numbers of their keywords. *)
  Fixpoint numbered (ins : list bytes) (l : list entry) : list ent :=
    match l with
    | [] => []
    | x :: l' => (x.1, number x.1 ins, x.2) :: numbered (ins ++ [x.1]) l'
    end.
  Lemma numbered_erase ins l : erase <$> numbered ins l = l.
  Proof. revert ins. induction l as [|[k d] l IH]; intros ins; [done|]. cbn. f_equal. apply IH. Qed.
  Lemma number_le kw l l' : number kw l <= number kw (l ++ l').
  Proof. rewrite number_app. lia. Qed.
  Lemma rising_numbered kw l : forall ins pre,
    rising 0 (number kw ins) (proj kw pre) -> rising 0 (number kw (ins ++ l.*1)) (proj kw (pre ++ numbered ins l)).
  Proof.
    induction l as [|[k d] l IH]; intros ins pre H; cbn [numbered fmap list_fmap fst snd].
    - by rewrite !app_nil_r.
    - replace (ins ++ k :: l.*1) with ((ins ++ [k]) ++ l.*1) by (by rewrite <- app_assoc).
      replace (pre ++ (k, number k ins, d) :: numbered (ins ++ [k]) l) with
        ((pre ++ [(k, number k ins, d)]) ++ numbered (ins ++ [k]) l) by (by rewrite <- app_assoc).
      apply IH. rewrite number_app, number_one, proj_app. unfold proj at 2. csimpl. destruct (decide (k = kw)) as [->|Hne].
      + rewrite Nat.add_1_r. apply rising_snoc; [done|lia|done].
      + by rewrite Nat.add_0_r, app_nil_r.
  Qed.
  Lemma docs_of_erase kw (l : list ent) : docs_of kw (erase <$> l) = (proj kw l).*2.
  Proof. unfold docs_of, proj. induction l as [|[[k i] d] l IH]; csimpl; [done|]. destruct (decide (k = kw)); csimpl; by rewrite IH. Qed.
  Lemma docs_of_app kw (l l' : list entry) : docs_of kw (l ++ l') = docs_of kw l ++ docs_of kw l'.
  Proof. apply omap_app. Qed.
  Lemma number_asked kw (l : list entry) : number kw l.*1 = length (docs_of kw l).
  Proof.
    unfold number, docs_of. induction l as [|[k d] l IH]; [done|]. csimpl. destruct (decide (k = kw)) as [->|Hne].
    - rewrite filter_cons_True by done. simpl. by rewrite IH.
    - rewrite filter_cons_False by done. exact IH.
  Qed.
  Lemma rising_take n kw k (l l' : list ent) : rising 0 n (proj kw (l ++ l')) -> rising 0 n (proj kw (l ++ take k l')).
  Proof. intros H. eapply rising_sub; [|exact H]. apply sublist_omap, sublist_app; [done|]. apply sublist_take. Qed.
  Lemma rising_left n kw (l l' : list ent) : rising 0 n (proj kw (l ++ l')) -> rising 0 n (proj kw l).
  Proof. intros H. apply (rising_take n kw 0) in H. by rewrite app_nil_r in H. Qed.
End numbered.

Section proofs.
  Context {P : proto} (token : bytes -> nat -> bytes) (unmask : bytes -> nat -> p_val P -> p_doc P)
    (acc : bytes -> nat -> p_acc P) (ok : p_doc P -> Prop) (order : nat -> list nat).
  Context (HP : proto_ok P token unmask acc ok order).
  Notation op := (yop P).
  Notation ent := (bytes * nat * p_doc P)%type.

  Record yinv (asked_so_far : list (bytes * p_doc P)) (s : ysys P) (z : yspec (P := P)) (ins : list bytes) (arr fl : list ent) : Prop := {
    yi_ctr : y_ctr P s = ctr_of ins;
    yi_db : y_db P s = db_of arr;
    yi_flight : y_flight P s = enc <$> fl;
    yi_writer : y_writer P s = z_session z;
    yi_up : y_up P s = z_session z;
    yi_works : y_works P s = z_works z;
    yi_zarr : z_arrived z = erase <$> arr;
    yi_zfl : z_flight z = erase <$> fl;
    yi_idle : z_session z = false -> fl = [];
    yi_number : forall kw, number kw ins <= length (docs_of kw asked_so_far);
    yi_rising : forall kw, rising 0 (number kw ins) (proj kw (arr ++ fl));
    yi_docs : Forall (fun x : ent => x.2 ∈ docs_of x.1.1 asked_so_far) (arr ++ fl) }.

  Lemma yi_more a l s z ins arr fl : yinv a s z ins arr fl -> yinv (a ++ l) s z ins arr fl.
  Proof.
    intros [H1 H2 H3 H4 H5 H6 H7 H8 H9 H10 H11 H12]. split; try done.
    - intros kw. rewrite docs_of_app, app_length. specialize (H10 kw). lia.
    - eapply Forall_impl; [exact H12|]. intros x Hx. cbn beta in *. rewrite docs_of_app. apply elem_of_app. by left.
  Qed.

  (** The requests of some insertions. *)
  Lemma y_requests_spec (l : list (bytes * p_doc P)) : forall s ins,
    y_ctr P s = ctr_of ins -> (forall kw, (N.of_nat (number kw (ins ++ l.*1)) < 2 ^ 32)%N) ->
    y_requests P s l = (YSys P (ctr_of (ins ++ l.*1)) (y_writer P s) (y_up P s) (y_works P s) (y_flight P s) (y_db P s),
                        enc <$> numbered ins l).
  Proof.
    induction l as [|[k d] l IH]; intros s ins Hc Hn; cbn [y_requests numbered fmap list_fmap fst snd].
    - rewrite app_nil_r, <- Hc. by destruct s.
    - unfold y_request. cbn [fst snd]. unfold ctr_get. rewrite Hc.
      assert (Hk : (N.of_nat (number k ins) < 2 ^ 32)%N). { pose proof (Hn k) as H. rewrite number_app in H. lia. }
      rewrite (IH _ (ins ++ [k])); cbn [y_ctr y_writer y_up y_works y_flight y_db fst snd].
      + rewrite <- app_assoc. cbn [app]. f_equal. f_equal. unfold enc at 1. cbn [fst snd].
        rewrite ctr_of_lookup by done. by rewrite ctr_value_next.
      + rewrite ctr_of_app. done.
      + intros kw. specialize (Hn kw). cbn [fmap list_fmap fst] in Hn. by rewrite <- app_assoc.
  Qed.
  Lemma y_request_spec kw doc s ins : y_ctr P s = ctr_of ins -> (N.of_nat (number kw (ins ++ [kw])) < 2 ^ 32)%N ->
    y_request P s kw doc = (YSys P (ctr_of (ins ++ [kw])) (y_writer P s) (y_up P s) (y_works P s) (y_flight P s) (y_db P s),
                            enc (kw, number kw ins, doc)).
  Proof.
    intros Hc Hn. unfold y_request. unfold ctr_get. rewrite Hc. rewrite number_app in Hn.
    rewrite ctr_of_app. cbn [foldl]. unfold ctr_step. f_equal. unfold enc. cbn [fst snd].
    rewrite ctr_of_lookup by lia. by rewrite ctr_value_next by lia.
  Qed.
  Lemma y_write_all_spec (s : ysys P) l : y_write_all P s l =
    if y_works P s then (YSys P (y_ctr P s) (y_writer P s) (y_up P s) true (y_flight P s ++ l) (y_db P s), true)
    else (s, match l with [] => true | _ => false end).
  Proof.
    revert s. induction l as [|u l IH]; intros s; cbn [y_write_all].
    - rewrite app_nil_r. destruct s as [? ? ? [|] ? ?]; done.
    - unfold y_write. destruct (y_works P s) eqn:E; cbn [fst snd]; [|done]. rewrite IH. cbn [y_works y_ctr y_writer y_up y_flight y_db].
      by rewrite <- app_assoc.
  Qed.

  Lemma yinv_read n a s z ins arr fl : yinv a s z ins arr fl ->
    yinv a (y_read P n s) (z_read n z) ins (arr ++ take n fl) (drop n fl).
  Proof.
    intros [H1 H2 H3 H4 H5 H6 H7 H8 H9 H10 H11 H12].
    split; cbn [y_read z_read y_ctr y_writer y_up y_works y_flight y_db z_session z_works z_flight z_arrived]; try done.
    - rewrite H2, H3, <- fmap_take. by rewrite db_of_app.
    - by rewrite H3, fmap_drop.
    - by rewrite H7, H8, fmap_app, fmap_take.
    - by rewrite H8, fmap_drop.
    - intros E. by rewrite (H9 E), drop_nil.
    - intros kw. by rewrite <- app_assoc, take_drop.
    - by rewrite <- app_assoc, take_drop.
  Qed.
  Lemma yinv_break a s z ins arr fl : yinv a s z ins arr fl -> yinv a (y_break P s) (z_cut z) ins arr [].
  Proof.
    intros [H1 H2 H3 H4 H5 H6 H7 H8 H9 H10 H11 H12].
    split; cbn [y_break z_cut y_ctr y_writer y_up y_works y_flight y_db z_session z_works z_flight z_arrived]; try done.
    - intros kw. rewrite app_nil_r. by eapply rising_left.
    - rewrite app_nil_r. by apply Forall_app in H12 as [? _].
  Qed.
  (** The counters are increased, nothing more. *)
  Lemma yinv_count a s z ins arr fl l : yinv a s z ins arr fl ->
    yinv (a ++ l) (YSys P (ctr_of (ins ++ l.*1)) (y_writer P s) (y_up P s) (y_works P s) (y_flight P s) (y_db P s)) z (ins ++ l.*1) arr fl.
  Proof.
    intros H. apply (yi_more _ l) in H as Hm. destruct H as [H1 H2 H3 H4 H5 H6 H7 H8 H9 H10 H11 H12].
    split; cbn [y_ctr y_writer y_up y_works y_flight y_db]; try done.
    - intros kw. rewrite number_app, docs_of_app, app_length, number_asked. specialize (H10 kw). lia.
    - intros kw. eapply rising_mono; [|apply H11]. rewrite number_app. lia.
    - apply (yi_docs _ _ _ _ _ _ Hm).
  Qed.
  Lemma docs_of_numbered ins (l : list (bytes * p_doc P)) : Forall (fun x : ent => x.2 ∈ docs_of x.1.1 l) (numbered ins l).
  Proof.
    apply Forall_forall. intros x Hx. assert (He : erase x ∈ l).
    { rewrite <- (numbered_erase ins l). by apply elem_of_list_fmap_1. }
    unfold docs_of. apply elem_of_list_omap. exists (erase x). split; [done|]. cbn. by rewrite decide_True.
  Qed.
  (** Some of the requests are written to the stream. *)
  Lemma yinv_send k a s z ins arr fl l : yinv a s z ins arr fl -> z_session z = true ->
    yinv (a ++ l) (y_write_all P (YSys P (ctr_of (ins ++ l.*1)) (y_writer P s) (y_up P s) (y_works P s) (y_flight P s) (y_db P s))
       (enc <$> take k (numbered ins l))).1 (z_send z (take k l)) (ins ++ l.*1) arr
       (if z_works z then fl ++ take k (numbered ins l) else fl).
  Proof.
    intros H Hs. pose proof (yinv_count _ _ _ _ _ _ l H) as Hc. rewrite y_write_all_spec. cbn [y_works y_ctr y_writer y_up y_flight y_db].
    rewrite (yi_works _ _ _ _ _ _ H). unfold z_send. destruct (z_works z) eqn:Ew; [|rewrite (yi_works _ _ _ _ _ _ H), Ew in Hc; exact Hc].
    destruct H as [H1 H2 H3 H4 H5 H6 H7 H8 H9 H10 H11 H12].
    split; cbn [fst y_ctr y_writer y_up y_works y_flight y_db z_session z_works z_flight z_arrived]; try done.
    - by rewrite H3, fmap_app.
    - rewrite H8, fmap_app. f_equal. rewrite fmap_take. by rewrite numbered_erase.
    - congruence.
    - apply (yi_number _ _ _ _ _ _ Hc).
    - intros kw. rewrite app_assoc. apply rising_take. by apply rising_numbered.
    - rewrite app_assoc. apply Forall_app. split; [apply (yi_docs _ _ _ _ _ _ Hc)|]. apply Forall_take.
      eapply Forall_impl; [apply docs_of_numbered|]. intros x Hx. cbn beta in *. rewrite docs_of_app. apply elem_of_app. by right.
  Qed.
  Lemma yinv_set_session a s z ins arr b w : yinv a s z ins arr [] ->
    yinv a (YSys P (y_ctr P s) b b w (y_flight P s) (y_db P s)) (YSpec b w (z_flight z) (z_arrived z)) ins arr [].
  Proof. intros [H1 H2 H3 H4 H5 H6 H7 H8 H9 H10 H11 H12]. by split. Qed.

  Lemma yinv_step a s z ins arr fl o : yinv a s z ins arr fl ->
    (forall kw, (N.of_nat (length (docs_of kw (a ++ asked o))) < 2 ^ 32)%N) ->
    exists ins' arr' fl', yinv (a ++ asked o) (ystep P s o).1 (z_step z o) ins' arr' fl'.
  Proof.
    intros H Hf.
    assert (Hn : forall kw, (N.of_nat (number kw (ins ++ (asked o).*1)) < 2 ^ 32)%N).
    { intros kw. specialize (Hf kw). rewrite docs_of_app, app_length in Hf. rewrite number_app, number_asked.
      pose proof (yi_number _ _ _ _ _ _ H kw). lia. }
    assert (Hins : forall kw doc, asked o = [(kw, doc)] -> z_session z = true ->
      exists ins' arr' fl', yinv (a ++ asked o) (y_insert_in_session P s kw doc).1 (z_send z [(kw, doc)]) ins' arr' fl').
    { intros kw doc Ho Hs. rewrite Ho in Hn. pose proof (y_request_spec kw doc s ins (yi_ctr _ _ _ _ _ _ H) (Hn kw)) as E.
      unfold y_insert_in_session. rewrite E.
      cbn [y_up fst snd]. rewrite (yi_up _ _ _ _ _ _ H), Hs. cbn [negb].
      pose proof (yinv_send 1 _ _ _ _ _ _ [(kw, doc)] H Hs) as Hx. cbn [numbered take fmap list_fmap y_write_all fst snd] in Hx.
      rewrite Ho. eexists _, _, _. rewrite (yi_up _ _ _ _ _ _ H), Hs in Hx.
      cbn zeta. cbn [fst]. match goal with |- yinv _ (y_write P ?x ?u).1 _ _ _ _ => destruct (y_write P x u) as [w [|]] end; exact Hx. }
    destruct o as [kw doc u|kw doc|l br| |br|kw sent okb|k| |]; cbn [ystep z_step asked] in *.
    - rewrite (yi_writer _ _ _ _ _ _ H). destruct (z_session z) eqn:Hs; [by apply Hins|].
      rewrite (y_request_spec kw doc s ins (yi_ctr _ _ _ _ _ _ H) (Hn kw)). cbn [y_ctr y_writer y_up y_works y_flight y_db fst snd].
      pose proof (yinv_count _ _ _ _ _ _ [(kw, doc)] H) as Hc. pose proof (yi_idle _ _ _ _ _ _ H Hs) as ->.
      assert (Hr : yinv (a ++ [(kw, doc)])
        (YSys P (ctr_of (ins ++ [kw])) (y_writer P s) (y_up P s) (y_works P s) (y_flight P s)
           (<[(enc (kw, number kw ins, doc)).1 := (enc (kw, number kw ins, doc)).2]> (y_db P s)))
        (YSpec (z_session z) (z_works z) (z_flight z) (z_arrived z ++ [(kw, doc)])) (ins ++ [kw]) (arr ++ [(kw, number kw ins, doc)]) []).
      { destruct Hc as [H1 H2 H3 H4 H5 H6 H7 H8 H9 H10 H11 H12]. cbn [y_ctr y_writer y_up y_works y_flight y_db fmap list_fmap fst] in *.
        split; cbn [y_ctr y_writer y_up y_works y_flight y_db z_session z_works z_flight z_arrived]; try done.
        - rewrite H2, db_of_app. done.
        - rewrite H7, fmap_app. done.
        - intros k. rewrite app_nil_r. pose proof (rising_numbered k [(kw, doc)] ins arr) as Hr. cbn [numbered fmap list_fmap fst snd] in Hr.
          apply Hr. pose proof (yi_rising _ _ _ _ _ _ H k) as Hk. by rewrite app_nil_r in Hk.
        - rewrite app_nil_r in *. apply Forall_app. split; [done|]. apply Forall_singleton. cbn [fst snd]. rewrite docs_of_app. apply elem_of_app.
          right. unfold docs_of. csimpl. rewrite decide_True by done. by left. }
      rewrite Hs in Hr. destruct u as [|[|]]; eexists _, _, _; [exact Hr|exact Hr|exact Hc].
    - destruct (z_session z) eqn:Hs; [by apply Hins|].
      unfold y_insert_in_session. rewrite (y_request_spec kw doc s ins (yi_ctr _ _ _ _ _ _ H) (Hn kw)). cbn [y_up fst snd]. rewrite (yi_up _ _ _ _ _ _ H), Hs. cbn [negb fst].
      pose proof (yinv_count _ _ _ _ _ _ [(kw, doc)] H) as Hc. rewrite (yi_up _ _ _ _ _ _ H), Hs in Hc. eexists _, _, _. exact Hc.
    - rewrite (yi_up _ _ _ _ _ _ H). destruct (z_session z) eqn:Hs; cbn [negb].
      2:{ exists ins, arr, fl. destruct br; by apply yi_more. }
      rewrite (y_requests_spec l s ins (yi_ctr _ _ _ _ _ _ H) Hn). cbn [fst snd]. destruct br as [k|].
      + pose proof (yinv_send k _ _ _ _ _ _ l H Hs) as Hx. rewrite <- fmap_take in *. apply yinv_break in Hx.
        match goal with |- context [y_write_all P (y_break P ?w) ?d] => pose proof (y_write_all_spec (y_break P w) d) as E end.
        cbn [y_break y_works] in E. rewrite E. cbn [fst]. eexists _, _, _. exact Hx.
      + pose proof (yinv_send (length l) _ _ _ _ _ _ l H Hs) as Hx.
        assert (El : length (numbered ins l) = length l) by (rewrite <- (numbered_erase ins l) at 2; by rewrite fmap_length).
        rewrite <- El in Hx at 1. rewrite firstn_all in Hx. rewrite firstn_all in Hx. eexists _, _, _. exact Hx.
    - rewrite app_nil_r. rewrite (yi_writer _ _ _ _ _ _ H). destruct (z_session z) eqn:Hs; [by eexists _, _, _|].
      pose proof (yi_idle _ _ _ _ _ _ H Hs) as ->. exists ins, arr, []. apply (yinv_set_session _ _ _ _ _ true true) in H as H'.
      rewrite (yi_zfl _ _ _ _ _ _ H), (yi_flight _ _ _ _ _ _ H) in H'. exact H'.
    - rewrite app_nil_r. rewrite (yi_writer _ _ _ _ _ _ H). destruct (z_session z) eqn:Hs; cbn [negb fst].
      2:{ destruct br; by eexists _, _, _. }
      destruct br as [k|].
      + pose proof (yinv_break _ _ _ _ _ _ (yinv_read k _ _ _ _ _ _ H)) as Hx. apply (yinv_set_session _ _ _ _ _ false false) in Hx.
        eexists _, _, _. exact Hx.
      + pose proof (yinv_read (length (y_flight P s)) _ _ _ _ _ _ H) as Hx.
        assert (El : length (y_flight P s) = length fl) by (by rewrite (yi_flight _ _ _ _ _ _ H), fmap_length).
        rewrite El in *. rewrite drop_all, firstn_all in Hx. eexists _, _, _.
        apply (yinv_set_session _ _ _ _ _ false (z_works z)) in Hx.
        assert (Ez : length (z_flight z) = length fl) by (by rewrite (yi_zfl _ _ _ _ _ _ H), fmap_length).
        cbn [z_read z_flight z_arrived] in Hx. rewrite <- Ez, drop_all, firstn_all, Ez in Hx.
        cbn [y_read y_works]. rewrite (yi_works _ _ _ _ _ _ H). exact Hx.
    - rewrite app_nil_r. by eexists _, _, _.
    - rewrite app_nil_r. pose proof (yinv_break _ _ _ _ _ _ (yinv_read k _ _ _ _ _ _ H)) as Hx. apply (yinv_set_session _ _ _ _ _ false false) in Hx.
      eexists _, _, _. exact Hx.
    - rewrite app_nil_r. eexists _, _, _. by apply yinv_read.
    - rewrite app_nil_r. eexists _, _, _. by eapply yinv_break.
  Qed.

  Lemma yrun_app (ops ops' : list op) : forall s,
    yrun P s (ops ++ ops') = ((yrun P (yrun P s ops).1 ops').1, (yrun P s ops).2 ++ (yrun P (yrun P s ops).1 ops').2).
  Proof. induction ops as [|o ops IH]; intros s; simpl; [by destruct (yrun P s ops')|]. by rewrite IH. Qed.
  Lemma yrun_snoc (ops : list op) o : yrun P (yinit P) (ops ++ [o]) =
    ((ystep P (yrun P (yinit P) ops).1 o).1, (yrun P (yinit P) ops).2 ++ [(ystep P (yrun P (yinit P) ops).1 o).2]).
  Proof. by rewrite yrun_app. Qed.
  Lemma z_run_snoc (ops : list op) o : z_run (ops ++ [o]) = z_step (z_run ops) o.
  Proof. unfold z_run. by rewrite foldl_app. Qed.
  Lemma asked_snoc (ops : list op) o : (ops ++ [o]) ≫= asked = (ops ≫= asked) ++ asked o.
  Proof. rewrite bind_app. cbn. by rewrite app_nil_r. Qed.
  Lemma y_few_app (ops ops' : list op) : y_few (ops ++ ops') -> y_few ops.
  Proof. intros H kw. specialize (H kw). unfold asked_docs in *. rewrite bind_app, docs_of_app, app_length in H. lia. Qed.
  Lemma yinv_run (ops : list op) : y_few ops ->
    exists ins arr fl, yinv (ops ≫= asked) (yrun P (yinit P) ops).1 (z_run ops) ins arr fl.
  Proof.
    induction ops as [|o ops IH] using rev_ind; intros Hf.
    - exists [], [], []. split; try done. constructor.
    - destruct (IH (y_few_app _ _ Hf)) as (ins & arr & fl & H). rewrite yrun_snoc, z_run_snoc, asked_snoc. cbn [fst].
      apply (yinv_step _ _ _ _ _ _ o H). intros kw. specialize (Hf kw). unfold asked_docs in Hf. by rewrite asked_snoc in Hf.
  Qed.

  (** A search. *)
  Lemma rising_slots lo n kw (l : list ent) : rising lo n (proj kw l) -> Forall (fun x : ent => x.1.1 = kw -> x.1.2 < n) l.
  Proof.
    revert lo. induction l as [|[[k i] d] l IH]; intros lo H; [constructor|]. unfold proj in H. csimpl.
    change (omap (fun x : ent => if decide (x.1.1 = kw) then Some (x.1.2, x.2) else None) ((k, i, d) :: l)) with
      (match (if decide (k = kw) then Some (i, d) else None) with Some y => y :: proj kw l | None => proj kw l end) in H.
    destruct (decide (k = kw)) as [->|Hne].
    - destruct H as (H1 & H2 & H3). constructor; [done|]. by eapply IH.
    - constructor; [done|]. by eapply IH.
  Qed.
  Lemma search_generic (ops : list op) kw : y_no_collision token ops -> y_few ops -> y_docs_ok ok ops ->
    exists ins arr,
      (forall sent okb, returns ops (YSearch P kw sent okb)
         (YResults P (omap (fun i => omap (at_number (proj kw arr)) (order (number kw ins)) !! i) sent) (negb okb))) /\
      rising 0 (number kw ins) (proj kw arr) /\ (proj kw arr).*2 = arrived_docs kw ops.
  Proof.
    intros Hnc Hf Hok. destruct (yinv_run ops Hf) as (ins & arr & fl & H). exists ins, arr.
    assert (Hris : forall k, rising 0 (number k ins) (proj k arr)) by (intros k; eapply rising_left, (yi_rising _ _ _ _ _ _ H)).
    split; [|split; [done|]].
    2:{ unfold arrived_docs. by rewrite (yi_zarr _ _ _ _ _ _ H), docs_of_erase. }
    intros sent okb. unfold returns. rewrite yrun_snoc. cbn [snd ystep]. f_equal. f_equal. f_equal. f_equal.
    enough (E : p_accesses P (p_request P kw (ctr_get (y_ctr P (yrun P (yinit P) ops).1) kw)) ≫= p_access P (y_db P (yrun P (yinit P) ops).1)
      = omap (at_number (proj kw arr)) (order (number kw ins))) by (by rewrite E).
    rewrite (yi_ctr _ _ _ _ _ _ H), (yi_db _ _ _ _ _ _ H). unfold ctr_get.
    pose proof (yi_number _ _ _ _ _ _ H) as Hn. pose proof (Hf kw) as Hfk. specialize (Hn kw) as Hnk. unfold asked_docs in Hfk.
    rewrite ctr_of_lookup by lia. pose proof (yi_docs _ _ _ _ _ _ H) as Hd. apply Forall_app in Hd as [Hd _].
    set (n := number kw ins) in *.
    assert (Eacc : p_accesses P (p_request P kw (ctr_value n)) = acc kw <$> order n).
    { destruct n as [|n'] eqn:En; cbn [ctr_value]; [|apply (po_some _ _ _ _ _ _ HP); lia].
      rewrite (po_none _ _ _ _ _ _ HP). pose proof (po_order _ _ _ _ _ _ HP 0) as E. simpl in E.
      apply Permutation_nil_r in E. by rewrite E. }
    rewrite Eacc. clear Eacc.
    assert (Hlt : Forall (fun i => i < n) (order n)).
    { apply Forall_forall. intros i Hi. rewrite (po_order _ _ _ _ _ _ HP n) in Hi. apply elem_of_seq in Hi. lia. }
    induction Hlt as [|i l Hi _ IH]; [done|]. rewrite fmap_cons, bind_cons, IH. csimpl. rewrite (po_access _ _ _ _ _ _ HP).
    rewrite (db_of_lookup token unmask acc ok order HP (fun k j => j < length (asked_docs k ops))).
    - unfold at_number. rewrite <- last_written_proj. by destruct (last_written kw i arr).
    - intros k j k' j' Hj Hj'. by apply Hnc.
    - cbn beta. unfold asked_docs. lia.
    - apply Forall_forall. intros x Hx. rewrite Forall_forall in Hd. specialize (Hd x Hx). cbn beta in Hd.
      pose proof (rising_slots _ _ _ _ (Hris x.1.1)) as Hs. rewrite Forall_forall in Hs. specialize (Hs x Hx eq_refl).
      split; [unfold asked_docs; specialize (Hn x.1.1); lia|]. specialize (Hok x.1.1). rewrite Forall_forall in Hok. by apply Hok.
  Qed.

  (** ** Sessions *)
  Lemma z_run_app (h h' : list op) : z_run (h ++ h') = foldl z_step (z_run h) h'.
  Proof. unfold z_run. by rewrite foldl_app. Qed.
  (** During a session what has been asked is there up to some point; the rest is on the way, or lost. *)
  Lemma session_prefix (z : yspec (P := P)) (ops : list op) : z_session z = true -> z_works z = true -> z_flight z = [] -> in_session ops ->
    let z' := foldl z_step z ops in let all := ops ≫= asked in
    z_session z' = true /\
    exists k, k <= length all /\ z_arrived z' = z_arrived z ++ take k all /\ z_flight z' = if z_works z' then drop k all else [].
  Proof.
    intros Hs Hw Hfl. induction ops as [|o ops IH] using rev_ind; intros Hin; cbn zeta.
    { cbn. split; [done|]. exists 0. rewrite Hfl, Hw. split; [lia|]. by rewrite app_nil_r. }
    apply Forall_app in Hin as [Hin Ho]. apply Forall_inv in Ho. destruct (IH Hin) as (Hs' & k & Hk & E & Ef). clear IH.
    rewrite foldl_app. cbn [foldl]. rewrite asked_snoc. set (z' := foldl z_step z ops) in *. set (all := ops ≫= asked) in *.
    assert (Hlost : forall z2 l, z_session z2 = true -> z_arrived z2 = z_arrived z' -> z_works z2 = false -> z_flight z2 = [] ->
      z_session z2 = true /\ exists k, k <= length (all ++ l) /\ z_arrived z2 = z_arrived z ++ take k (all ++ l) /\
        z_flight z2 = if z_works z2 then drop k (all ++ l) else []).
    { intros z2 l H1 H2 H3 H4. split; [done|]. exists k. rewrite app_length. split; [lia|]. rewrite H2, H3, H4, E. split; [|done].
      by rewrite take_app_le. }
    assert (Hsend : forall l, z_session (z_send z' l) = true /\
      exists k, k <= length (all ++ l) /\ z_arrived (z_send z' l) = z_arrived z ++ take k (all ++ l) /\
        z_flight (z_send z' l) = if z_works (z_send z' l) then drop k (all ++ l) else []).
    { intros l. unfold z_send. destruct (z_works z') eqn:Ew; cbn [z_session z_works z_flight z_arrived].
      - split; [done|]. exists k. rewrite app_length. split; [lia|]. rewrite Ef, E. split; [by rewrite take_app_le|by rewrite drop_app_le].
      - by apply Hlost. }
    destruct o as [kw doc u|kw doc|l br| |br|kw sent okb|j| |]; cbn [z_step asked] in *; try (exfalso; exact Ho).
    - rewrite Hs'. apply Hsend.
    - rewrite Hs'. apply Hsend.
    - rewrite Hs'. destruct br as [j|]; [|apply Hsend]. apply Hlost; cbn [z_cut z_session z_works z_flight z_arrived]; try done.
      + unfold z_send. by destruct (z_works z').
      + unfold z_send. by destruct (z_works z').
    - rewrite app_nil_r. split; [done|]. by exists k.
    - cbn [z_read z_session z_works z_flight z_arrived]. rewrite app_nil_r. split; [done|]. rewrite E, Ef. destruct (z_works z').
      + destruct (drop k all) as [|x r] eqn:Ed.
        * exists k. rewrite Ed. cbn. rewrite app_nil_r. done.
        * exists (S k). assert (Hl : S k <= length all). { apply (f_equal length) in Ed. rewrite drop_length in Ed. simpl in Ed. lia. }
          split; [done|]. cbn [drop take]. rewrite drop_0, take_0.
          assert (Ek : all !! k = Some x). { pose proof (lookup_drop all k 0) as Hd. rewrite Ed, Nat.add_0_r in Hd. by rewrite <- Hd. }
          rewrite (take_S_r _ _ _ Ek), <- app_assoc. split; [done|].
          rewrite <- (Nat.add_1_r k), <- drop_drop, Ed. by rewrite skipn_cons, drop_0.
      + exists k. cbn. by rewrite app_nil_r.
    - rewrite app_nil_r. split; [done|]. exists k. by cbn.
  Qed.
  (** A whole session. *)
  Lemma session_whole (h s : list op) breaks : z_session (z_run h) = false -> in_session s ->
    let ops := h ++ YStart P :: s in
    exists k, z_arrived (z_run (ops ++ [YEnd P breaks])) = z_arrived (z_run h) ++ take k (s ≫= asked) /\
      ((breaks = None /\ z_works (z_run ops) = true) -> length (s ≫= asked) <= k) /\
      z_session (z_run (ops ++ [YEnd P breaks])) = false.
  Proof.
    intros Hs Hin ops. rewrite z_run_snoc. assert (Eo : z_run ops = foldl z_step (YSpec true true [] (z_arrived (z_run h))) s).
    { subst ops. rewrite z_run_app. cbn [foldl z_step]. by rewrite Hs. }
    destruct (session_prefix (YSpec true true [] (z_arrived (z_run h))) s eq_refl eq_refl eq_refl Hin) as (Hs' & k & Hk & E & Ef).
    rewrite <- Eo in Hs', E, Ef. cbn [z_arrived] in E. set (all := s ≫= asked) in *.
    destruct breaks as [j|]; cbn [z_step]; rewrite Hs'; cbn [z_arrived z_session].
    - destruct (z_works (z_run ops)).
      + exists (k + j). split; [|by split; [intros [? ?]|]]. rewrite E, Ef, <- app_assoc. f_equal. rewrite <- (take_drop k (take (k + j) all)).
        rewrite take_take, Nat.min_l by lia. f_equal. rewrite <- take_drop_commute. done.
      + exists k. split; [|by split; [intros [? ?]|]]. by rewrite E, Ef, take_nil, app_nil_r.
    - destruct (z_works (z_run ops)).
      + exists (length all). split; [|done]. by rewrite E, Ef, <- app_assoc, take_drop, firstn_all.
      + exists k. split; [|split; [by intros [_ ?]|done]]. by rewrite E, Ef, app_nil_r.
  Qed.
  (** The output of the end of a session. *)
  Lemma end_output (ops : list op) breaks : y_few ops -> z_session (z_run ops) = true ->
    returns ops (YEnd P breaks) (YReturn P (match breaks with None => negb (z_works (z_run ops)) | Some _ => true end)).
  Proof.
    intros Hf Hs. destruct (yinv_run ops Hf) as (ins & arr & fl & H). unfold returns. rewrite yrun_snoc. cbn [snd ystep].
    rewrite (yi_writer _ _ _ _ _ _ H), Hs. cbn [negb snd]. f_equal. f_equal. f_equal. destruct breaks; [done|]. cbn. by rewrite (yi_works _ _ _ _ _ _ H).
  Qed.
  Lemma session_output (ops : list op) kw doc : y_few ops ->
    returns ops (YSession P kw doc) (if z_session (z_run ops) then YReturn P (negb (z_works (z_run ops))) else YThrow P).
  Proof.
    intros Hf. destruct (yinv_run ops Hf) as (ins & arr & fl & H). unfold returns. rewrite yrun_snoc. cbn [snd ystep]. f_equal. f_equal.
    unfold y_insert_in_session, y_request, y_write. cbn [y_up y_works fst snd]. rewrite (yi_up _ _ _ _ _ _ H), (yi_works _ _ _ _ _ _ H).
    destruct (z_session (z_run ops)); cbn [negb]; [|done]. by destruct (z_works (z_run ops)).
  Qed.
  Lemma insert_output (ops : list op) kw doc u : y_few ops ->
    returns ops (YInsert P kw doc u) (YReturn P (if z_session (z_run ops) then negb (z_works (z_run ops)) else match u with UOk => false | _ => true end)).
  Proof.
    intros Hf. destruct (yinv_run ops Hf) as (ins & arr & fl & H). unfold returns. rewrite yrun_snoc. cbn [snd ystep]. f_equal. f_equal.
    rewrite (yi_writer _ _ _ _ _ _ H). unfold y_insert_in_session, y_request, y_write. cbn [y_up y_works fst snd].
    rewrite (yi_up _ _ _ _ _ _ H), (yi_works _ _ _ _ _ _ H).
    destruct (z_session (z_run ops)); cbn [negb]; [|done]. by destruct (z_works (z_run ops)).
  Qed.
End proofs.
