(** C75: what remove_directory removes. *)
From stdpp Require Import prelude gmap.
From Coq Require Import Lia.
From Verif Require Import Base RmModel.

(** Specification. *)
(** [q] is [p] or below it. *)
Definition below (p q : path) : Prop := p `suffix_of` q.
(** Every entry is in a directory. *)
Definition well_formed (f : files) : Prop :=
  forall n p, is_Some (f !! (n :: p)) -> f !! p = Some KFolder.

Scheme fts_mut := Minimality for fts Sort Prop
  with fts_list_mut := Minimality for fts_list Sort Prop.
Combined Scheme fts_both from fts_mut, fts_list_mut.

Definition ev_path (e : fts_ev) : path :=
  match e with FtsD p | FtsDP p | FtsErr p | FtsF p | FtsSL p => p end.

Section proofs.
  Variable readable xdev perm : path -> bool.

  Lemma fts_below f :
    (forall p es, fts readable xdev f p es -> Forall (fun e => below p (ev_path e)) es) /\
    (forall p ns es, fts_list readable xdev f p ns es -> Forall (fun e => exists n, n ∈ ns /\ below (n :: p) (ev_path e)) es).
  Proof.
    apply fts_both.
    - intros p _. repeat constructor. done.
    - intros p b _. repeat constructor. done.
    - intros p _ _. repeat constructor; done.
    - intros p _ _. repeat constructor; done.
    - intros p _ _ _. repeat constructor; done.
    - intros p ns es _ _ _ _ _ _ IH. constructor; [done|]. apply Forall_app. split; [|by repeat constructor].
      eapply Forall_impl; [exact IH|]. intros e (n & _ & H). etransitivity; [|exact H]. by exists [n].
    - intros p. constructor.
    - intros p n ns es es' _ IH1 _ IH2. apply Forall_app. split; (eapply Forall_impl; [eassumption|]); cbn.
      + intros e H. exists n. split; [by left|done].
      + intros e (n' & Hn & H). exists n'. split; [by right|done].
  Qed.

  Lemma remove_spec f p f' : r_remove perm f p = Some f' ->
    f' = delete p f /\ is_Some (f !! p) /\ perm p = true /\ (f !! p = Some KFolder -> forall n, f !! (n :: p) = None).
  Proof.
    unfold r_remove. destruct (perm p); [|done]. cbn [andb].
    destruct (f !! p) as [[|b|]|] eqn:E; [..|done]; try (intros [= <-]; split; [done|split; [by eexists|split; [done|done]]]).
    unfold r_empty. case_bool_decide as He; [|done]. intros [= <-]. split; [done|]. split; [by eexists|]. split; [done|].
    intros _ n. destruct (f !! (n :: p)) as [k|] eqn:En; [|done]. exfalso. by destruct (He _ _ En) as [H|H].
  Qed.

  Lemma remove_wf f p f' : well_formed f -> r_remove perm f p = Some f' -> well_formed f'.
  Proof.
    intros Hw (-> & Hp & _ & Hd)%remove_spec n q [k Hq].
    apply lookup_delete_Some in Hq as [Hne Hq]. assert (f !! q = Some KFolder) as Hf by (by apply (Hw n); eexists).
    rewrite lookup_delete_ne; [done|]. intros ->. rewrite (Hd Hf n) in Hq. done.
  Qed.

  Lemma loop_frame p es : Forall (fun e => below p (ev_path e)) es -> forall f,
    (forall q, ~ below p q -> (r_loop perm f es).1 !! q = f !! q) /\
    (forall q k, (r_loop perm f es).1 !! q = Some k -> f !! q = Some k).
  Proof.
    induction 1 as [|e es He _ IH]; intros f; [done|].
    assert (forall q, below p q -> forall f1, r_remove perm f q = Some f1 ->
      (forall q', ~ below p q' -> (r_loop perm f1 es).1 !! q' = f !! q') /\
      (forall q' k, (r_loop perm f1 es).1 !! q' = Some k -> f !! q' = Some k)) as Hrm.
    { intros q Hq f1 (-> & _)%remove_spec. destruct (IH (delete q f)) as [I1 I2]. split.
      - intros q' Hq'. rewrite I1 by done. apply lookup_delete_ne. by intros ->.
      - intros q' k H%I2. by apply lookup_delete_Some in H as [_ H]. }
    destruct e as [q|q|q|q|q]; cbn [r_loop ev_path] in *; [apply IH| |done| |];
      (destruct (r_remove perm f q) as [f1|] eqn:Er; [by apply (Hrm q He)|done]).
  Qed.

  Lemma loop_wf es : forall f, well_formed f -> well_formed (r_loop perm f es).1.
  Proof.
    induction es as [|e es IH]; intros f Hw; [done|].
    destruct e as [q|q|q|q|q]; cbn [r_loop]; [by apply IH| |done| |];
      (destruct (r_remove perm f q) as [f1|] eqn:Er; [|done]; apply IH; by eapply remove_wf).
  Qed.

  Lemma loop_app es1 es2 : forall f,
    r_loop perm f (es1 ++ es2) =
      match (r_loop perm f es1).2 with Ok _ => r_loop perm (r_loop perm f es1).1 es2 | _ => r_loop perm f es1 end.
  Proof.
    induction es1 as [|e es1 IH]; intros f; [done|].
    destruct e as [q|q|q|q|q]; cbn [r_loop app]; [by apply IH| |done| |];
      (destruct (r_remove perm f q) as [f1|] eqn:Er; [by apply IH|done]).
  Qed.

  (** The last event of a traversal that succeeds removes its root. *)
  Lemma fts_last f p es : fts readable xdev f p es ->
    (exists es', (es = es' ++ [FtsDP p] \/ es = es' ++ [FtsF p] \/ es = es' ++ [FtsSL p])) \/
    es = [FtsD p; FtsErr p] \/ es = [FtsErr p].
  Proof.
    intros H. destruct H as [p H|p b H|p H _|p H _|p H _ _|p ns es' H _ _ _ _ _].
    - left. exists []. by right; left.
    - left. exists []. by right; right.
    - by right; right.
    - by right; left.
    - left. exists [FtsD p]. by left.
    - left. exists (FtsD p :: es'). by left.
  Qed.
  Lemma loop_last f p es : fts readable xdev f p es -> forall f0 b, (r_loop perm f0 es).2 = Ok b ->
    b = true /\ (r_loop perm f0 es).1 !! p = None.
  Proof.
    intros H f0 b. destruct (fts_last f p es H) as [(es' & Hes)|[-> | ->]]; [|done|done].
    destruct Hes as [Hes|[Hes|Hes]]; subst es; rewrite loop_app; destruct (r_loop perm f0 es').2 eqn:E; try (by rewrite E);
      cbn [r_loop]; (destruct (r_remove perm (r_loop perm f0 es').1 p) as [f1|] eqn:Er; [|done]);
      apply remove_spec in Er as [-> _]; cbn [fst snd]; intros [= <-]; (split; [done|apply lookup_delete]).
  Qed.

  (** Nothing is in the way of the traversal of [f0], a part of [f] where what is below
      the root is intact. *)
  Lemma loop_ok f : well_formed f ->
    (forall q, below [] q -> perm q = true) -> (forall q, readable q = true) -> (forall q, xdev q = false) ->
    (forall p es, fts readable xdev f p es -> forall f0,
       (forall q, below p q -> f0 !! q = f !! q) ->
       exists f1, r_loop perm f0 es = (f1, Ok true) /\
         (forall q, below p q -> f1 !! q = None) /\ (forall q, ~ below p q -> f1 !! q = f0 !! q)) /\
    (forall p ns es, fts_list readable xdev f p ns es -> NoDup ns -> forall f0,
       (forall n q, n ∈ ns -> below (n :: p) q -> f0 !! q = f !! q) ->
       exists f1, r_loop perm f0 es = (f1, Ok true) /\
         (forall n q, n ∈ ns -> below (n :: p) q -> f1 !! q = None) /\
         (forall q, (forall n, n ∈ ns -> ~ below (n :: p) q) -> f1 !! q = f0 !! q)).
  Proof.
    intros Hw Hperm Hread Hx.
    assert (Hp : forall q, perm q = true) by (intros q; apply Hperm; exists q; by rewrite app_nil_r).
    assert (Hnodesc : forall p k, f !! p = Some k -> k <> KFolder -> forall q, below p q -> q <> p -> f !! q = None).
    { intros p k Hk Hne q [l ->] Hq. destruct (f !! (l ++ p)) eqn:E; [|done]. exfalso.
      assert (Hup : forall l, l <> [] -> is_Some (f !! (l ++ p)) -> f !! p = Some KFolder).
      { intros l0. induction l0 as [|n l0 IH]; [done|]. intros _ Hs. apply (Hw n) in Hs.
        destruct l0 as [|n' l0]; [done|]. apply IH; [done|]. by eexists. }
      destruct l as [|n l]; [done|]. rewrite (Hup (n :: l)) in Hk; [congruence|done|by eexists]. }
    apply fts_both.
    - intros p H f0 Hf0. cbn [r_loop]. unfold r_remove. rewrite Hp, (Hf0 p), H by done. cbn [andb].
      eexists. split; [done|]. split.
      + intros q Hq. destruct (decide (q = p)) as [->|Hne]; [by rewrite lookup_delete|].
        rewrite lookup_delete_ne by done. rewrite Hf0 by done. by eapply Hnodesc.
      + intros q Hq. apply lookup_delete_ne. intros ->. by destruct Hq.
    - intros p b H f0 Hf0. cbn [r_loop]. unfold r_remove. rewrite Hp, (Hf0 p), H by done. cbn [andb].
      eexists. split; [done|]. split.
      + intros q Hq. destruct (decide (q = p)) as [->|Hne]; [by rewrite lookup_delete|].
        rewrite lookup_delete_ne by done. rewrite Hf0 by done. by eapply Hnodesc.
      + intros q Hq. apply lookup_delete_ne. intros ->. by destruct Hq.
    - intros p _ H. by rewrite Hread in H.
    - intros p _ H. by rewrite Hread in H.
    - intros p _ _ H. by rewrite Hx in H.
    - intros p ns es H _ _ Hnd Hns _ IH f0 Hf0. cbn [r_loop]. rewrite loop_app.
      destruct (IH Hnd f0) as (f1 & -> & I1 & I2).
      { intros n q Hn Hq. apply Hf0. etransitivity; [|exact Hq]. by exists [n]. }
      cbn [fst snd r_loop].
      assert (Hself : f1 !! p = Some KFolder).
      { rewrite I2; [by rewrite Hf0|]. intros n _ [l Hl]. apply (f_equal length) in Hl. rewrite app_length in Hl.
        cbn in Hl. lia. }
      assert (Hlow : forall q, below p q -> q <> p -> f1 !! q = None).
      { intros q [l ->] Hne. destruct (decide (Exists (fun n => below (n :: p) (l ++ p)) ns)) as [He|He].
        - apply Exists_exists in He as (n & Hn & Hb). by apply (I1 n).
        - rewrite I2; [|intros n Hn Hb; apply He, Exists_exists; by exists n]. rewrite Hf0 by (by exists l).
          destruct (f !! (l ++ p)) eqn:E; [|done]. exfalso. apply He.
          assert (Hup : forall l, l <> [] -> is_Some (f !! (l ++ p)) -> Exists (fun n => below (n :: p) (l ++ p)) ns).
          { intros l0. induction l0 as [|n l0 IHl]; [done|]. intros _ Hs. destruct l0 as [|n' l0].
            - apply Exists_exists. exists n. split; [by apply Hns|done].
            - pose proof (Hw _ _ Hs) as Hd. assert (Exists (fun n => below (n :: p) ((n' :: l0) ++ p)) ns) as Hex.
              { apply IHl; [done|]. by eexists. }
              eapply Exists_impl; [exact Hex|]. intros m Hm. etransitivity; [exact Hm|]. by exists [n]. }
          apply Hup; [|by eexists]. by intros ->. }
      unfold r_remove. rewrite Hp, Hself. cbn [andb].
      assert (r_empty f1 p = true) as ->.
      { apply bool_decide_eq_true. intros q k Hq. destruct q as [|n q]; [by right|]. left. cbn [tail]. intros ->.
        rewrite Hlow in Hq; [done|by exists [n]|]. intros E. apply (f_equal length) in E. cbn in E. lia. }
      eexists. split; [done|]. split.
      + intros q Hq. destruct (decide (q = p)) as [->|Hne]; [by rewrite lookup_delete|].
        rewrite lookup_delete_ne by done. by apply Hlow.
      + intros q Hq. rewrite lookup_delete_ne; [|intros ->; by destruct Hq]. apply I2. intros n _ Hb. apply Hq.
        etransitivity; [|exact Hb]. by exists [n].
    - intros p _ f0 _. exists f0. split; [done|]. split; [|done]. intros n q Hn. by apply elem_of_nil in Hn.
    - intros p n ns es es' _ IH1 _ IH2 Hnd f0 Hf0. apply NoDup_cons in Hnd as [Hni Hnd]. rewrite loop_app.
      destruct (IH1 f0) as (f1 & -> & I1 & I2); [intros q Hq; apply (Hf0 n); [by left|done]|]. cbn [fst snd].
      assert (Hdisj : forall m q, m ∈ ns -> below (m :: p) q -> ~ below (n :: p) q).
      { intros m q Hm [l1 ->] [l2 E]. assert (Hlen : length l1 = length l2).
        { apply (f_equal length) in E. rewrite !app_length in E. cbn in E. lia. }
        apply app_inj_1 in E as [_ E]; [|done]. injection E as ->. done. }
      destruct (IH2 Hnd f1) as (f2 & -> & J1 & J2).
      { intros m q Hm Hq. rewrite I2 by (by apply (Hdisj m)). apply (Hf0 m); [by right|done]. }
      exists f2. split; [done|]. split.
      + intros m q [->|Hm]%elem_of_cons Hq; [|by apply (J1 m)].
        rewrite J2; [by apply I1|]. intros m Hm Hb. by apply (Hdisj m q Hm Hb).
      + intros q Hq. rewrite J2; [|intros m Hm; apply Hq; by right]. apply I2. apply Hq. by left.
  Qed.

  (** A traversal exists. *)
  Lemma fts_exists f : forall k p, is_Some (f !! p) ->
    size (filter (fun x : path * kind => below p x.1) f) <= k -> exists es, fts readable xdev f p es.
  Proof.
    induction k as [|k IH]; intros p [kd Hp] Hs.
    { exfalso. assert (filter (fun x : path * kind => below p x.1) f = ∅) as He.
      { apply map_size_empty_inv. lia. }
      assert (filter (fun x : path * kind => below p x.1) f !! p = Some kd) as Hf by (apply map_filter_lookup_Some; done).
      by rewrite He in Hf. }
    destruct kd as [|b|].
    - exists [FtsF p]. by constructor.
    - exists [FtsSL p]. by econstructor.
    - destruct (readable p) eqn:Er; [|exists [FtsD p; FtsErr p]; by constructor].
      destruct (xdev p) eqn:Ex; [exists [FtsD p; FtsDP p]; by constructor|].
      set (ns := omap (fun q : path => match q with n :: q' => if decide (q' = p) then Some n else None | [] => None end)
        (elements (dom f))).
      assert (Hns : forall n, n ∈ remove_dups ns <-> is_Some (f !! (n :: p))).
      { intros n. rewrite elem_of_remove_dups. unfold ns. rewrite elem_of_list_omap. split.
        - intros (q & Hq & Hm). apply elem_of_elements, elem_of_dom in Hq. destruct q as [|m q']; [done|].
          destruct (decide (q' = p)) as [->|]; [|done]. by injection Hm as <-.
        - intros Hn. exists (n :: p). split; [by apply elem_of_elements, elem_of_dom|]. by rewrite decide_True. }
      assert (Hlist : forall l, (forall n, n ∈ l -> is_Some (f !! (n :: p))) -> exists es, fts_list readable xdev f p l es).
      { induction l as [|n l IHl]; intros Hl; [exists []; constructor|].
        destruct (IHl) as [es' Hes']; [intros m Hm; apply Hl; by right|].
        destruct (IH (n :: p)) as [es Hes]; [apply Hl; by left| |exists (es ++ es'); by constructor].
        assert (size (filter (fun x : path * kind => below (n :: p) x.1) f) <
                size (filter (fun x : path * kind => below p x.1) f)); [|lia].
        rewrite <- !(size_dom (D := gset path)). apply subset_size, subset_dom. split.
        - apply map_subseteq_spec. intros q kd Hq. apply map_filter_lookup_Some in Hq as [Hq Hb].
          apply map_filter_lookup_Some. split; [done|]. cbn in *. etransitivity; [|exact Hb]. by exists [n].
        - intros Hsub. assert (filter (fun x : path * kind => below p x.1) f !! p = Some KFolder) as Hf
            by (apply map_filter_lookup_Some; done).
          apply (lookup_weaken _ _ _ _ Hf) in Hsub. apply map_filter_lookup_Some in Hsub as [_ [l' Hb]].
          cbn in Hb. apply (f_equal length) in Hb. rewrite app_length in Hb. cbn in Hb. lia. }
      destruct (Hlist (remove_dups ns)) as [es Hes]; [intros n; by apply Hns|].
      exists (FtsD p :: es ++ [FtsDP p]). apply (fts_dir _ _ _ p (remove_dups ns)); try done. apply NoDup_remove_dups.
  Qed.
End proofs.

(** C75: whatever happens, even if it throws, nothing outside the directory is changed, and
    nothing inside is changed into something else; links are not followed. *)
Theorem C75_confined : forall readable xdev perm fails f p f' r,
  remove_directory readable xdev perm fails f p (f', r) ->
  (forall q, ~ below p q -> f' !! q = f !! q) /\ (forall q k, f' !! q = Some k -> f !! q = Some k).
Proof.
  intros readable xdev perm fails f p f' r H. remember (f', r) as x eqn:Ex.
  destruct H as [He|He|es He Hes|es es' He _ Hes].
  - by injection Ex as <- <-.
  - by injection Ex as <- <-.
  - assert (f' = (r_loop perm f es).1) as -> by (by rewrite Ex). apply loop_frame. by eapply (fts_below readable xdev f).
  - assert (f' = (r_loop perm f es).1) as -> by (by rewrite Ex). apply loop_frame.
    apply (fts_below readable xdev f), Forall_app in Hes. tauto.
Qed.
Print Assumptions C75_confined.

(** C75: if it returns and fts_read did not fail, it returns true, and nothing is left at the
    path or below, unless the path is a dangling link. *)
Theorem C75_removed : forall readable xdev perm f p f' b,
  well_formed f -> f !! p <> Some (KLink false) ->
  remove_directory readable xdev perm false f p (f', Ok b) ->
  b = true /\ forall q, below p q -> f' !! q = None.
Proof.
  intros readable xdev perm f p f' b Hw Hl H. remember (f', Ok b) as x eqn:Ex.
  assert (Hno : forall g : files, well_formed g -> g !! p = None -> forall q, below p q -> g !! q = None).
  { intros g Hg Hp q [l ->]. induction l as [|n l IH]; [done|]. cbn [app].
    destruct (g !! (n :: l ++ p)) eqn:E; [|done]. assert (g !! (l ++ p) = Some KFolder) as HF by (by apply (Hg n); eexists).
    pose proof (eq_trans (eq_sym IH) HF). done. }
  destruct H as [He|He|es He Hes|]; [|done| |done].
  - injection Ex as <- <-. split; [done|]. apply Hno; [done|]. unfold r_exists in He.
    destruct (f !! p) as [[|[]|]|]; done.
  - assert (f' = (r_loop perm f es).1) as -> by (by rewrite Ex).
    destruct (loop_last readable xdev perm f p es Hes f b) as [-> Hp]; [by rewrite Ex|]. split; [done|].
    apply Hno; [by apply loop_wf|done].
Qed.
Print Assumptions C75_removed.

(** C75: if the system allows everything, fts_open works, and there is one file system, it
    returns, in whatever order the entries are visited; and there is such an order. *)
Theorem C75_works : forall readable xdev perm f p,
  well_formed f -> (forall q, perm q = true) -> (forall q, readable q = true) -> (forall q, xdev q = false) ->
  is_Some (f !! p) ->
  (exists es, fts readable xdev f p es) /\
  (forall es, fts readable xdev f p es -> exists f', r_loop perm f es = (f', Ok true) /\
     (forall q, below p q -> f' !! q = None) /\ (forall q, ~ below p q -> f' !! q = f !! q)).
Proof.
  intros readable xdev perm f p Hw Hp Hr Hx Hs. split.
  - by eapply fts_exists.
  - intros es Hes. by eapply (proj1 (loop_ok readable xdev perm f Hw (fun q _ => Hp q) Hr Hx)).
Qed.
Print Assumptions C75_works.

(** C75 (refuted): a dangling link is reported as removed, and stays. *)
Theorem C75_dangling_refuted : exists f p,
  well_formed f /\ is_Some (f !! p) /\
  forall readable xdev perm fails f' r,
    remove_directory readable xdev perm fails f p (f', r) -> r = Ok true /\ f' = f.
Proof.
  exists {[ [] := KFolder; [1%positive] := KLink false ]}, [1%positive]. split.
  { intros n q Hs. destruct (decide (q = [])) as [->|Hne]; [done|]. exfalso.
    rewrite lookup_insert_ne in Hs by done. rewrite lookup_singleton_ne in Hs; [by destruct Hs|]. intros E. injection E as _ E. by apply Hne. }
  split; [by eexists|].
  intros readable xdev perm fails f' r H. remember (f', r) as x eqn:Ex.
  destruct H as [He|He|es He Hes|es es' He _ Hes]; [by injection Ex as <- <-|..]; by vm_compute in He.
Qed.
Print Assumptions C75_dangling_refuted.

(** C75 (refuted): if fts_read fails, true is returned although the directory is there. *)
Theorem C75_error_refuted : exists f p,
  well_formed f /\ f !! p = Some KFolder /\
  exists f', remove_directory (fun _ => true) (fun _ => false) (fun _ => true) true f p (f', Ok true) /\
    f' !! p = Some KFolder.
Proof.
  exists {[ [] := KFolder ]}, []. split.
  { intros n q Hs. rewrite lookup_singleton_ne in Hs by done. by destruct Hs. }
  split; [done|]. eexists. split; [|by apply lookup_singleton].
  apply (rd_stop _ _ _ _ _ _ [] [FtsD []; FtsDP []]); [done|done|].
  apply (fts_dir _ _ _ [] [] []); try done; [constructor| |constructor].
  intros n. rewrite lookup_singleton_ne by done. rewrite elem_of_nil. split; [done|]. by intros [? ?].
Qed.
Print Assumptions C75_error_refuted.

(** A directory with a file, a link and a subdirectory. *)
Definition ex_files : files :=
  {[ [] := KFolder; [1] := KFolder; [2; 1] := KFile; [3; 1] := KLink true; [4; 1] := KFolder; [5; 4; 1] := KFile;
     [6] := KFile ]}%positive.
Example C75_ex : well_formed ex_files /\ is_Some (ex_files !! [1]%positive) /\
  exists es, fts (fun _ => true) (fun _ => false) ex_files [1]%positive es /\
    r_loop (fun _ => true) ex_files es = ({[ [] := KFolder; [6]%positive := KFile ]}, Ok true).
Proof.
  split.
  { intros n q [k Hk]. assert (map_Forall (fun q' _ => ex_files !! tail q' = Some KFolder) ex_files) as H by (apply (bool_decide_unpack _); by vm_compute).
    exact (H _ _ Hk). }
  split; [by eexists|].
  exists ([FtsD [1]%positive] ++ (([FtsD [4; 1]%positive] ++ ([FtsF [5; 4; 1]%positive] ++ []) ++ [FtsDP [4; 1]%positive]) ++ [FtsSL [3; 1]%positive] ++ [FtsF [2; 1]%positive] ++ []) ++ [FtsDP [1]%positive]).
  assert (Hch : forall p l, forallb (fun q => match q with n :: q' => if decide (q' = p) then bool_decide (n ∈ l) else true | [] => true end)
     (elements (dom ex_files)) = true -> Forall (fun n => is_Some (ex_files !! (n :: p))) l ->
     forall n, n ∈ l <-> is_Some (ex_files !! (n :: p))).
  { intros p l H1 H2 n. split; [intros Hn; by eapply (proj1 (Forall_forall _ _) H2)|].
    intros Hs. apply elem_of_dom, elem_of_elements in Hs. apply forallb_forall with (x := n :: p) in H1; [|by apply elem_of_list_In].
    rewrite decide_True in H1 by done. by apply bool_decide_eq_true in H1. }
  split; [|rewrite (surjective_pairing (r_loop _ _ _)); apply (f_equal2 pair); [apply (bool_decide_unpack _); by vm_compute|by vm_compute]].
  apply (fts_dir _ _ _ [1] [4; 3; 2])%positive; try done.
  { apply (bool_decide_unpack _). by vm_compute. }
  { apply Hch; [by vm_compute|]. repeat constructor; by eexists. }
  apply fts_cons.
  { apply (fts_dir _ _ _ [4; 1] [5])%positive; try done.
    { apply NoDup_singleton. }
    { apply Hch; [by vm_compute|]. repeat constructor; by eexists. }
    apply fts_cons; [by constructor|constructor]. }
  apply fts_cons; [by econstructor|]. apply fts_cons; [by constructor|constructor].
Qed.
