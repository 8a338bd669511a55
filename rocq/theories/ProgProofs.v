(** Lemmas about the command lines of the programs. *)
From stdpp Require Import prelude strings.
From Coq Require Import ZArith NArith Ascii Lia.
From Verif Require Import Base ProgModel ProgSpec.
Local Open Scope string_scope.
Local Open Scope list_scope.
Local Arguments String.append : simpl nomatch.

Lemma mjoin_cons {A} (l : list A) ls : mjoin (l :: ls) = l ++ mjoin ls.
Proof. done. Qed.
Lemma sapp_assoc (a b c : string) : (a +:+ b) +:+ c = a +:+ (b +:+ c).
Proof. induction a as [|x a IH]; [done|]. simpl. by rewrite IH. Qed.
Lemma sapp_nil (a : string) : a +:+ "" = a.
Proof. induction a as [|x a IH]; [done|]. simpl. by rewrite IH. Qed.
Lemma str_app l1 l2 : str (l1 ++ l2) = str l1 +:+ str l2.
Proof. induction l1 as [|x l1 IH]; [done|]. simpl. by rewrite IH. Qed.

(** The string of options describes the grammar. *)
Record grammar (os : string) (F A : list ascii) : Prop := {
  gr_flag : forall c, opt_of os c = Some false <-> c ∈ F;
  gr_arg : forall c, opt_of os c = Some true <-> c ∈ A;
  gr_hyphen : opt_of os "-" = None;
}.

Section scan.
  Context (os : string) (F A : list ascii) (HG : grammar os F A).

  Definition fl (fs : list ascii) : list ev := (fun c => EvOpt c "") <$> fs.
  Definition evo (o : ascii * string) : ev := EvOpt o.1 o.2.

  Lemma cluster_flags fs w : Forall (fun c => c ∈ F) fs ->
    cluster os (str fs +:+ w) = (fl fs ++ (cluster os w).1, (cluster os w).2).
  Proof using HG.
    induction 1 as [|c fs Hc _ IH]; [change (str [] +:+ w) with w; by destruct (cluster os w)|]. simpl.
    rewrite (proj2 (gr_flag _ _ _ HG c) Hc). by rewrite IH.
  Qed.
  Lemma cluster_all fs : Forall (fun c => c ∈ F) fs -> cluster os (str fs) = (fl fs, None).
  Proof using HG. intros H. rewrite <- (sapp_nil (str fs)), cluster_flags by done. simpl. by rewrite app_nil_r. Qed.
  Lemma cluster_last fs c : Forall (fun c => c ∈ F) fs -> c ∈ A ->
    cluster os (str fs +:+ String c "") = (fl fs, Some c).
  Proof using HG.
    intros H Hc. rewrite cluster_flags by done. simpl. rewrite (proj2 (gr_arg _ _ _ HG c) Hc). simpl. by rewrite app_nil_r.
  Qed.
  Lemma cluster_attached fs c arg : Forall (fun c => c ∈ F) fs -> c ∈ A -> arg <> "" ->
    cluster os (str fs +:+ String c "" +:+ arg) = (fl fs ++ [EvOpt c arg], None).
  Proof using HG.
    intros H Hc Ha. rewrite cluster_flags by done. simpl. rewrite (proj2 (gr_arg _ _ _ HG c) Hc).
    destruct arg as [|x arg]; [done|]. done.
  Qed.

  Lemma not_hyphen c : c ∈ F \/ c ∈ A -> c <> "-"%char.
  Proof using HG.
    intros [H|H] ->; [apply (gr_flag _ _ _ HG) in H|apply (gr_arg _ _ _ HG) in H]; rewrite (gr_hyphen _ _ _ HG) in H; done.
  Qed.

  (** A word of options. *)
  Lemma scan_word c w rest : ~ (c = "-"%char /\ w = "") ->
    scan os (String "-" (String c w) :: rest) =
      match cluster os (String c w) with
      | (evs, None) => (evs ++ (scan os rest).1, (scan os rest).2)
      | (evs, Some o) =>
          match rest with
          | [] => (evs ++ [EvBad o], [])
          | arg :: rest' => (evs ++ EvOpt o arg :: (scan os rest').1, (scan os rest').2)
          end
      end.
  Proof using. intros H. cbn [scan]. by rewrite (bool_decide_eq_false_2 _ H). Qed.

  Lemma scan_plain w rest : plain w -> scan os (w :: rest) = ((scan os rest).1, w :: (scan os rest).2).
  Proof using.
    intros [->|H]; [done|]. destruct w as [|a w]; [done|].
    destruct (decide (a = "-"%char)) as [->|Hne]; [by destruct w|].
    clear H. destruct a as [[] [] [] [] [] [] [] []]; try done. all: by destruct w.
  Qed.

  (** The hyphen and the rest of a word. *)
  Lemma scan_cluster s rest : s <> "" -> s <> "-" ->
    scan os (("-" +:+ s) :: rest) =
      match cluster os s with
      | (evs, None) => (evs ++ (scan os rest).1, (scan os rest).2)
      | (evs, Some o) =>
          match rest with
          | [] => (evs ++ [EvBad o], [])
          | arg :: rest' => (evs ++ EvOpt o arg :: (scan os rest').1, (scan os rest').2)
          end
      end.
  Proof using. intros H1 H2. destruct s as [|c w]; [done|]. apply scan_word. intros [-> ->]. done. Qed.

  Lemma str_head_ne fs w : Forall (fun c => c ∈ F \/ c ∈ A) fs -> fs <> [] -> str fs +:+ w <> "" /\ str fs +:+ w <> "-".
  Proof using HG.
    intros [|c fs' Hc _] Hn; [done|]. split; [done|]. simpl. intros H. injection H as -> _.
    by apply (not_hyphen "-").
  Qed.

  Lemma scan_item i rest : wf_item F A i ->
    scan os (render_item i ++ rest) = ((evo <$> item_opts i) ++ (scan os rest).1, item_words i ++ (scan os rest).2).
  Proof using HG.
    destruct i as [w|fs|fs c arg att]; cbn [wf_item render_item item_opts item_words].
    - intros H. by apply scan_plain.
    - intros [Hn H]. change ([ "-" +:+ str fs] ++ rest) with (("-" +:+ str fs) :: rest).
      destruct (str_head_ne fs "") as [N1 N2]; [eapply Forall_impl; [exact H|]; auto|done|].
      rewrite sapp_nil in N1, N2. rewrite scan_cluster, cluster_all by done. f_equal. f_equal.
      rewrite <- list_fmap_compose. done.
    - intros (H & Hc & Ha).
      assert (HF : Forall (fun c => c ∈ F \/ c ∈ A) (fs ++ [c])).
      { apply Forall_app. split; [eapply Forall_impl; [exact H|]; auto|]. constructor; [by right|constructor]. }
      assert (Hn : fs ++ [c] <> []) by (by destruct fs).
      assert (E1 : str fs +:+ String c "" = str (fs ++ [c])) by (by rewrite str_app).
      rewrite fmap_app. replace (evo <$> ((fun c => (c, "")) <$> fs)) with (fl fs) by (by rewrite <- list_fmap_compose).
      destruct att.
      + destruct (str_head_ne _ arg HF Hn) as [N1 N2].
        change (["-" +:+ (str fs +:+ (String c "" +:+ arg))] ++ rest) with (("-" +:+ (str fs +:+ (String c "" +:+ arg))) :: rest).
        rewrite <- E1, sapp_assoc in N1, N2.
        rewrite scan_cluster, cluster_attached by auto. f_equal.
      + destruct (str_head_ne _ "" HF Hn) as [N1 N2]. rewrite sapp_nil, <- E1 in N1, N2.
        change (["-" +:+ (str fs +:+ String c ""); arg] ++ rest) with (("-" +:+ (str fs +:+ String c "")) :: arg :: rest).
        rewrite scan_cluster, cluster_last by done. cbn. by rewrite <- app_assoc.
  Qed.

  Lemma scan_items items rest : Forall (wf_item F A) items ->
    scan os (mjoin (render_item <$> items) ++ rest) =
      ((evo <$> options items) ++ (scan os rest).1, mjoin (item_words <$> items) ++ (scan os rest).2).
  Proof using HG.
    unfold options. induction 1 as [|i items Hi _ IH]; [exact (surjective_pairing _)|].
    rewrite !fmap_cons, !mjoin_cons, fmap_app, <- !app_assoc.
    rewrite scan_item, IH by done. cbn [fst snd]. done.
  Qed.

  Lemma scan_render items tail : Forall (wf_item F A) items ->
    scan os (render items tail) = (evo <$> options items, words items tail).
  Proof using HG.
    intros H. unfold render, words. rewrite scan_items by done. destruct tail; cbn; by rewrite ?app_nil_r.
  Qed.

  (** Conversely, a command line without wrong option is of this form. *)
  Definition good (e : ev) : Prop := match e with EvOpt _ _ => True | EvBad _ => False end.

  Lemma cluster_inv w evs o : cluster os w = (evs, o) -> Forall good evs ->
    exists fs, Forall (fun c => c ∈ F) fs /\
      match o with
      | Some c => w = str fs +:+ String c "" /\ c ∈ A /\ evs = fl fs
      | None => (w = str fs /\ evs = fl fs) \/
                (exists c arg, c ∈ A /\ arg <> "" /\ w = str fs +:+ String c "" +:+ arg /\ evs = fl fs ++ [EvOpt c arg])
      end.
  Proof using HG.
    revert evs. induction w as [|c w IH]; intros evs E Hg; simpl in E.
    - injection E as <- <-. exists []. split; [constructor|]. by left.
    - destruct (opt_of os c) as [[]|] eqn:Eo.
      + apply (gr_arg _ _ _ HG) in Eo. destruct w as [|x w].
        * injection E as <- <-. exists []. split; [constructor|]. done.
        * injection E as <- <-. exists []. split; [constructor|]. right. by exists c, (String x w).
      + apply (gr_flag _ _ _ HG) in Eo. destruct (cluster os w) as [evs' o'] eqn:Ec. simpl in E. injection E as <- <-.
        apply Forall_cons in Hg as [_ Hg]. destruct (IH evs' eq_refl Hg) as (fs & HF & H).
        exists (c :: fs). split; [by constructor|]. destruct o' as [c'|].
        * destruct H as (-> & Hc & ->). done.
        * destruct H as [[-> ->]|(c' & arg & H1 & H2 & -> & ->)]; [by left|]. right. by exists c', arg.
      + destruct (cluster os w) as [evs' o'] eqn:Ec. simpl in E. injection E as <- <-. apply Forall_cons in Hg as [[] _].
  Qed.

  Lemma scan_inv n args : (length args <= n)%nat -> Forall good (scan os args).1 ->
    exists items tail, Forall (wf_item F A) items /\ args = render items tail.
  Proof using HG.
    revert args. induction n as [|n IH]; intros args Hn Hg.
    - destruct args; [|simpl in Hn; lia]. by exists [], None.
    - destruct args as [|a rest]; [by exists [], None|]. simpl in Hn.
      assert (Hcons : forall i rest', wf_item F A i -> (exists items tail, Forall (wf_item F A) items /\ rest' = render items tail) ->
        exists items tail, Forall (wf_item F A) items /\ render_item i ++ rest' = render items tail).
      { intros i rest' Hi (items & tail & H1 & ->). exists (i :: items), tail. split; [by constructor|].
        unfold render. by rewrite fmap_cons, mjoin_cons, <- app_assoc. }
      destruct (decide (plain a)) as [Hp|Hp].
      { rewrite scan_plain in Hg by done. simpl in Hg. apply (Hcons (Word a) rest Hp). apply IH; [lia|done]. }
      assert (Ha : exists s, a = "-" +:+ s /\ s <> "").
      { destruct a as [|x a]; [by destruct Hp; right|]. destruct (decide (x = "-"%char)) as [->|Hx].
        - exists a. split; [done|]. intros ->. destruct Hp. by left.
        - destruct Hp. right. change ((if ascii_dec "-" x then String.prefix "" a else false) = false). destruct (ascii_dec "-" x); [congruence|done]. }
      destruct Ha as (s & -> & Hs). destruct (decide (s = "-")) as [->|Hs'].
      { exists [], (Some rest). split; [constructor|]. done. }
      rewrite scan_cluster in Hg by done. destruct (cluster os s) as [evs o] eqn:Ec. destruct o as [c|].
      + destruct rest as [|arg rest].
        * simpl in Hg. apply Forall_app in Hg as [_ Hg]. by apply Forall_cons in Hg as [[] _].
        * simpl in Hg, Hn. apply Forall_app in Hg as [Hg1 Hg2]. apply Forall_cons in Hg2 as [_ Hg2].
          destruct (cluster_inv _ _ _ Ec Hg1) as (fs & HF & -> & Hc & _).
          apply (Hcons (WithArg fs c arg false) rest); [by split|]. apply IH; [lia|done].
      + simpl in Hg. apply Forall_app in Hg as [Hg1 Hg2].
        destruct (cluster_inv _ _ _ Ec Hg1) as (fs & HF & [[-> _]|(c & arg & H1 & H2 & -> & _)]).
        * apply (Hcons (Flags fs) rest); [split; [by destruct fs|done]|]. apply IH; [lia|done].
        * apply (Hcons (WithArg fs c arg true) rest); [by split|]. apply IH; [lia|done].
  Qed.
End scan.

(** getopt returns options of its string only. *)
Lemma cluster_known os w : (forall c arg, EvOpt c arg ∈ (cluster os w).1 -> opt_of os c <> None) /\
  (forall c, (cluster os w).2 = Some c -> opt_of os c <> None).
Proof.
  induction w as [|x w [IH1 IH2]]; cbn [cluster].
  - split; [intros c arg H; by apply elem_of_nil in H|done].
  - destruct (opt_of os x) as [[]|] eqn:Eo.
    + destruct w as [|y w]; cbn [fst snd]; (split; [intros c arg H|intros c H]).
      * by apply elem_of_nil in H.
      * injection H as <-. by rewrite Eo.
      * apply elem_of_list_singleton in H as [= -> ->]. by rewrite Eo.
      * done.
    + cbn [fst snd]. split; [|exact IH2]. intros c arg H. apply elem_of_cons in H as [[= -> ->]|H]; [by rewrite Eo|by eapply IH1].
    + cbn [fst snd]. split; [|exact IH2]. intros c arg H. apply elem_of_cons in H as [H|H]; [done|by eapply IH1].
Qed.
Lemma scan_known os n args : (length args <= n)%nat -> forall c arg, EvOpt c arg ∈ (scan os args).1 -> opt_of os c <> None.
Proof.
  revert args. induction n as [|n IH]; intros args Hn c arg Hin; [destruct args; [by apply elem_of_nil in Hin|simpl in Hn; lia]|].
  destruct args as [|a rest]; [by apply elem_of_nil in Hin|]. simpl in Hn.
  destruct (decide (plain a)) as [Hp|Hp].
  { rewrite scan_plain in Hin by done. eapply IH; [|exact Hin]. lia. }
  destruct a as [|x s]; [by destruct Hp; right|]. destruct (decide (x = "-"%char)) as [->|Hx].
  2:{ destruct Hp. right. change ((if ascii_dec "-" x then String.prefix "" s else false) = false). destruct (ascii_dec "-" x); [congruence|done]. }
  destruct (decide (s = "")) as [->|Hs1]; [by destruct Hp; left|].
  destruct (decide (s = "-")) as [->|Hs2]; [by apply elem_of_nil in Hin|].
  change (String "-" s) with ("-" +:+ s) in Hin. rewrite scan_cluster in Hin by done.
  destruct (cluster_known os s) as [A1 A2]. destruct (cluster _ s) as [evs [o|]]; cbn [fst snd] in *.
  - destruct rest as [|b rest]; cbn [fst] in Hin.
    + apply elem_of_app in Hin as [Hin|Hin]; [by eapply A1|]. by apply elem_of_list_singleton in Hin.
    + apply elem_of_app in Hin as [Hin|Hin]; [by eapply A1|]. apply elem_of_cons in Hin as [[= -> ->]|Hin]; [by apply A2|].
      eapply IH; [|exact Hin]. simpl in Hn. lia.
  - apply elem_of_app in Hin as [Hin|Hin]; [by eapply A1|]. eapply IH; [|exact Hin]. lia.
Qed.

(** The strings of options of the programs. *)
Lemma grammar_check os F A :
  forallb (fun n => let c := ascii_of_nat n in
    bool_decide ((opt_of os c = Some false <-> c ∈ F) /\ (opt_of os c = Some true <-> c ∈ A))) (seq 0 256) = true ->
  opt_of os "-" = None -> grammar os F A.
Proof.
  intros H Hh. rewrite forallb_forall in H.
  assert (Hc : forall c, (opt_of os c = Some false <-> c ∈ F) /\ (opt_of os c = Some true <-> c ∈ A)).
  { intros c. specialize (H (nat_of_ascii c)). cbn zeta in H. rewrite ascii_nat_embedding in H.
    apply bool_decide_eq_true in H; [done|]. apply in_seq. pose proof (nat_ascii_bounded c). lia. }
  split; [intros c; apply Hc..|done].
Qed.
Lemma sophos_c_grammar : grammar (c_optstring SophosC) ["d"]%char ["l"; "b"; "o"; "i"; "r"]%char.
Proof. apply grammar_check; by vm_compute. Qed.
Lemma diana_c_grammar : grammar (c_optstring DianaC) ["d"; "q"]%char ["l"; "b"; "r"]%char.
Proof. apply grammar_check; by vm_compute. Qed.
Lemma s_grammar p : grammar (s_optstring p) ["s"]%char ["b"]%char.
Proof. destruct p; apply grammar_check; by vm_compute. Qed.

(** * The switches *)
Lemma last_arg_cons c o os :
  last_arg c (o :: os) = match last_arg c os with Some a => Some a | None => if decide (o.1 = c) then Some o.2 else None end.
Proof.
  unfold last_arg. destruct (decide (o.1 = c)) as [H|H].
  - rewrite filter_cons_True by done. destruct (filter _ os) as [|x l] eqn:E; [done|].
    rewrite last_cons_cons. destruct (last (x :: l)) as [y|] eqn:El; [done|]. apply last_None in El. done.
  - rewrite filter_cons_False by done. by destruct (last _).
Qed.

Definition handled (p : client) (o : ascii * string) : Prop := o.1 ∈ c_flags p ++ c_withargs.
(** No -q. *)
Definition prints (os : list (ascii * string)) : bool := bool_decide (Forall (fun o => o.1 <> "q"%char) os).
Definition count_from (stod : string -> stod_res) (n : N) (os : list (ascii * string)) : N :=
  match last_arg "r" os with
  | Some arg => match stod arg with StodValue z => Z.to_N z | _ => 0 end
  | None => n
  end%N.

Section switch.
  Context (stod : string -> stod_res) (p : client).

  Lemma c_switch_ok os s : Forall (handled p) os -> counts_ok stod os ->
    c_switch stod p (evo <$> os) s =
      Go (COpts (o_files s ++ files os) (default (o_db s) (last_arg "b" os)) (count_from stod (o_rnd s) os)
            (o_print s && prints os)).
  Proof.
    intros H. revert s. induction H as [|[c arg] os Hc _ IH]; intros s Hr.
    - simpl. unfold prints. rewrite app_nil_r, andb_true_r. by destruct s.
    - assert (Hr' : counts_ok stod os) by (intros a Ha; apply Hr; by right).
      assert (Hpr : prints ((c, arg) :: os) = bool_decide (c <> "q"%char) && prints os).
      { unfold prints. rewrite <- bool_decide_and. apply bool_decide_ext. by rewrite Forall_cons. }
      rewrite Hpr. unfold count_from. rewrite !last_arg_cons. rewrite fmap_cons.
      assert (Hcs : c = "l"%char \/ c = "b"%char \/ c = "d"%char \/ (c = "q"%char /\ p = DianaC) \/ c = "r"%char).
      { unfold handled in Hc. destruct p; set_unfold in Hc; simpl in Hc; tauto. }
      destruct Hcs as [->|[->|[->|[[-> Hp]| ->]]]]; cbn [c_switch evo fst snd files omap list_omap].
      + rewrite bool_decide_eq_true_2 by done. rewrite IH by done. unfold count_from. cbn.
        rewrite <- app_assoc. destruct (last_arg "b" os), (last_arg "r" os); reflexivity.
      + rewrite bool_decide_eq_false_2, bool_decide_eq_true_2 by done. rewrite IH by done. unfold count_from. cbn.
        destruct (last_arg "b" os), (last_arg "r" os); reflexivity.
      + rewrite !bool_decide_eq_false_2, bool_decide_eq_true_2 by done. rewrite IH by done. unfold count_from. cbn.
        rewrite <- app_assoc. destruct (last_arg "b" os), (last_arg "r" os); reflexivity.
      + rewrite !(bool_decide_eq_false_2 ("q"%char = _)), (bool_decide_eq_true_2 (_ /\ _)) by done.
        rewrite IH by done. unfold count_from. cbn. rewrite andb_false_r. destruct (last_arg "b" os), (last_arg "r" os); reflexivity.
      + destruct (Hr arg) as (z & Ez & Hz); [by left|].
        rewrite !(bool_decide_eq_false_2 ("r"%char = _)), (bool_decide_eq_false_2 (_ /\ _)), (bool_decide_eq_true_2 ("r"%char = _))
          by (try done; intros [? _]; done).
        unfold count_of. rewrite Ez, bool_decide_eq_true_2 by done. rewrite IH by done. unfold count_from. cbn.
        rewrite (decide_True (P := "r"%char = "r"%char)) by done.
        destruct (last_arg "b" os), (last_arg "r" os); rewrite ?Ez; reflexivity.
  Qed.

  Lemma c_switch_go evs s s' : c_switch stod p evs s = Go s' ->
    Forall good evs /\ forall c arg, EvOpt c arg ∈ evs -> c ∈ c_flags p ++ c_withargs /\
      (c = "r"%char -> exists z, stod arg = StodValue z /\ (0 <= z < 2 ^ 32)%Z).
  Proof.
    revert s. induction evs as [|e evs IH]; intros s E.
    - split; [constructor|]. intros c arg H. by apply elem_of_nil in H.
    - destruct e as [c arg|c]; [|done]. cbn [c_switch] in E.
      assert (Hk : (exists s2, c_switch stod p evs s2 = Go s') /\ c ∈ c_flags p ++ c_withargs /\
        (c = "r"%char -> exists z, stod arg = StodValue z /\ (0 <= z < 2 ^ 32)%Z)).
      { case_bool_decide as H1; [subst; split_and!; [by eexists|destruct p; set_solver|done]|].
        case_bool_decide as H2; [subst; split_and!; [by eexists|destruct p; set_solver|done]|].
        case_bool_decide as H3; [subst; split_and!; [by eexists|destruct p; set_solver|done]|].
        case_bool_decide as H4; [destruct H4 as [-> ->]; split_and!; [by eexists|set_solver|done]|].
        case_bool_decide as H5; [|done]. unfold count_of in E.
        destruct (stod arg) as [| |z] eqn:Ez; try done. case_bool_decide as Hz; [|done].
        subst. split_and!; [by eexists|destruct p; set_solver|eauto]. }
      destruct Hk as ([s2 E2] & Hc & Hr). destruct (IH s2 E2) as [H1 H2]. split; [by constructor|].
      intros c' arg' H. apply elem_of_cons in H as [[= -> ->]|H]; [done|]. by apply H2.
  Qed.
End switch.

(** Every option is handled, and conversely. *)
Lemma c_scan p items tail : Forall (wf_item (c_flags p) c_withargs) items ->
  scan (c_optstring p) (render items tail) = (evo <$> options items, words items tail).
Proof.
  intros H. destruct p.
  - apply (scan_render _ _ _ sophos_c_grammar). eapply Forall_impl; [exact H|].
    intros [w|fs|fs c arg att]; simpl; [done|done|]. intros (H1 & H2 & H3). split_and!; [done| |done].
    unfold c_withargs in H2. set_solver.
  - by apply (scan_render _ _ _ diana_c_grammar).
Qed.
Lemma item_handled F A i o : wf_item F A i -> o ∈ item_opts i -> o.1 ∈ F ++ A.
Proof.
  destruct i as [w|fs|fs c arg att]; simpl.
  - intros _ H. by apply elem_of_nil in H.
  - intros [_ H] (c & -> & Hc)%elem_of_list_fmap. rewrite Forall_forall in H. apply elem_of_app. left. by apply H.
  - intros (H & Hc & _) [(c' & -> & Hc')%elem_of_list_fmap| ->%elem_of_list_singleton]%elem_of_app.
    + rewrite Forall_forall in H. apply elem_of_app. left. by apply H.
    + apply elem_of_app. by right.
Qed.
Lemma options_elem items o : o ∈ options items <-> exists i, i ∈ items /\ o ∈ item_opts i.
Proof.
  unfold options. rewrite elem_of_list_join. split.
  - intros (l & Ho & (i & -> & Hi)%elem_of_list_fmap). eauto.
  - intros (i & Hi & Ho). exists (item_opts i). split; [done|]. by apply elem_of_list_fmap_1.
Qed.
Lemma options_handled p items : Forall (wf_item (c_flags p) c_withargs) items -> Forall (handled p) (options items).
Proof.
  intros H. apply Forall_forall. intros o (i & Hi & Ho)%options_elem. rewrite Forall_forall in H.
  exact (item_handled _ _ _ _ (H i Hi) Ho).
Qed.
Lemma wf_restrict (F F' A A' : list ascii) i : wf_item F' A' i ->
  (forall o, o ∈ item_opts i -> o.1 ∈ F ++ A) -> (forall c, c ∈ F' -> c ∉ A) -> (forall c, c ∈ A' -> c ∉ F) ->
  wf_item F A i.
Proof.
  destruct i as [w|fs|fs c arg att]; simpl; [done|..].
  - intros [Hn H] Ho H1 H2. split; [done|]. apply Forall_forall. intros c Hc. rewrite Forall_forall in H.
    assert ((c, "").1 ∈ F ++ A) as Hx by (apply Ho; apply elem_of_list_fmap; by exists c).
    apply elem_of_app in Hx as [Hx|Hx]; [done|]. destruct (H1 c (H c Hc) Hx).
  - intros (H & Hc & Ha) Ho H1 H2. split_and!; [|..|done].
    + apply Forall_forall. intros c' Hc'. rewrite Forall_forall in H.
      assert ((c', "").1 ∈ F ++ A) as Hx by (apply Ho, elem_of_app; left; apply elem_of_list_fmap; by exists c').
      apply elem_of_app in Hx as [Hx|Hx]; [done|]. destruct (H1 c' (H c' Hc') Hx).
    + assert ((c, arg).1 ∈ F ++ A) as Hx by (apply Ho, elem_of_app; right; by apply elem_of_list_singleton).
      apply elem_of_app in Hx as [Hx|Hx]; [|done]. destruct (H2 c Hc Hx).
Qed.
Lemma evo_elem c arg (os : list (ascii * string)) : EvOpt c arg ∈ evo <$> os <-> (c, arg) ∈ os.
Proof.
  split.
  - intros ([c' a'] & [= -> ->] & H)%elem_of_list_fmap. done.
  - intros H. apply elem_of_list_fmap. by exists (c, arg).
Qed.

Lemma c_accepts stod p args s : c_switch stod p (scan (c_optstring p) args).1 copts0 = Go s ->
  exists items tail, Forall (wf_item (c_flags p) c_withargs) items /\ counts_ok stod (options items) /\
    args = render items tail.
Proof.
  intros E. destruct (c_switch_go _ _ _ _ _ E) as [Hg Hh].
  assert (exists F A items tail, grammar (c_optstring p) F A /\ Forall (wf_item F A) items /\ args = render items tail /\
    (forall c, c ∈ F -> c ∉ c_withargs) /\ (forall c, c ∈ A -> c ∉ c_flags p)) as (F & A & items & tail & HG & HF & -> & H1 & H2).
  { destruct p.
    - destruct (scan_inv _ _ _ sophos_c_grammar (length args) args) as (items & tail & HF & E2); [done|done|].
      exists ["d"]%char, ["l"; "b"; "o"; "i"; "r"]%char, items, tail. split_and!; [exact sophos_c_grammar|done|done|..].
      + apply Forall_forall, (bool_decide_unpack _). by vm_compute.
      + apply Forall_forall, (bool_decide_unpack _). by vm_compute.
    - destruct (scan_inv _ _ _ diana_c_grammar (length args) args) as (items & tail & HF & E2); [done|done|].
      exists ["d"; "q"]%char, ["l"; "b"; "r"]%char, items, tail. split_and!; [exact diana_c_grammar|done|done|..].
      + apply Forall_forall, (bool_decide_unpack _). by vm_compute.
      + apply Forall_forall, (bool_decide_unpack _). by vm_compute. }
  exists items, tail. rewrite (scan_render _ _ _ HG) in Hh by done. cbn [fst] in Hh. split_and!; [| |done].
  - apply Forall_forall. intros i Hi. rewrite Forall_forall in HF. eapply wf_restrict; [by apply HF| |done|done].
    intros [c arg] Ho. apply (Hh c arg). apply evo_elem, options_elem. eauto.
  - intros arg Ha. destruct (Hh "r"%char arg) as [_ H]; [by apply evo_elem|]. by apply H.
Qed.

(** Servers. *)
Lemma s_switch_ok p os async db : Forall (fun o => o.1 ∈ s_flags ++ s_withargs) os ->
  s_switch p (evo <$> os) async db =
    Go (async && bool_decide (Forall (fun o => o.1 <> "s"%char) os), default db (last_arg "b" os)).
Proof.
  intros H. revert async db. induction H as [|[c arg] os Hc _ IH]; intros async db.
  - simpl. by rewrite andb_true_r.
  - rewrite fmap_cons, last_arg_cons.
    assert (Hpr : bool_decide (Forall (fun o : ascii * string => o.1 <> "s"%char) ((c, arg) :: os)) =
      bool_decide (c <> "s"%char) && bool_decide (Forall (fun o => o.1 <> "s"%char) os)).
    { rewrite <- bool_decide_and. apply bool_decide_ext. by rewrite Forall_cons. }
    rewrite Hpr. simpl in Hc. assert (Hcs : c = "b"%char \/ c = "s"%char).
    { unfold s_flags, s_withargs in Hc. set_unfold in Hc. simpl in Hc. tauto. }
    destruct Hcs as [->| ->]; cbn [s_switch evo fst snd].
    + rewrite bool_decide_eq_true_2 by done. rewrite IH. rewrite (decide_True (P := "b"%char = "b"%char)) by done.
      by destruct (last_arg "b" os).
    + rewrite bool_decide_eq_false_2, bool_decide_eq_true_2 by done. rewrite IH. cbn. rewrite andb_false_r.
      by destruct (last_arg "b" os).
Qed.
Lemma s_switch_go p evs async db x : s_switch p evs async db = Go x -> Forall good evs.
Proof.
  revert async db. induction evs as [|[c arg|c] evs IH]; intros async db E; [constructor| |done].
  cbn [s_switch] in E. constructor; [done|]. repeat case_bool_decide; [by eapply IH..|done].
Qed.

(** * What the clients do *)
Definition completed (ok : nat -> act -> bool) (acts : list act) (i : nat) : Prop :=
  forall k a, acts !! k = Some a -> ok (i + k)%nat a = true.

Lemma c_run_ok ok answers print acts i : completed ok acts i ->
  c_run ok answers print i acts = (acts, outputs (print_search print) answers i acts, Returns 0).
Proof.
  revert i. induction acts as [|a acts IH]; intros i H; [done|]. cbn [c_run].
  assert (Ha : ok i a = true) by (specialize (H O a eq_refl); by rewrite Nat.add_0_r in H).
  rewrite Ha, IH; [by destruct a|]. intros k b Hk. specialize (H (S k) b Hk). by rewrite Nat.add_succ_r in H.
Qed.
Lemma c_run_stop ok answers print acts i :
  completed ok acts i \/
  exists acts1 a acts2, acts = acts1 ++ a :: acts2 /\ completed ok acts1 i /\ ok (i + length acts1)%nat a = false /\
    c_run ok answers print i acts = (acts1 ++ [a], outputs (print_search print) answers i acts1, Terminated).
Proof.
  revert i. induction acts as [|a acts IH]; intros i; [left; intros k b Hk; done|]. cbn [c_run].
  destruct (ok i a) eqn:Ha.
  - destruct (IH (S i)) as [H|(acts1 & b & acts2 & -> & H1 & H2 & ->)].
    + left. intros [|k] b Hk; [injection Hk as <-; by rewrite Nat.add_0_r|]. rewrite Nat.add_succ_r. by apply H.
    + right. exists (a :: acts1), b, acts2. split_and!; [done| |by cbn; rewrite Nat.add_succ_r|].
      * intros [|k] b' Hk; [injection Hk as <-; by rewrite Nat.add_0_r|]. rewrite Nat.add_succ_r. by apply H1.
      * by destruct a.
  - right. exists [], a, acts. split_and!; [done|intros k b Hk; done|by rewrite Nat.add_0_r|done].
Qed.

(** * The printed text *)
Lemma print_fold rs acc : (foldl (print_one true) (false, acc) rs).2 = acc +:+ match rs with [] => "" | _ => ", " +:+ commas (DbGenModel.to_string <$> rs) end.
Proof.
  revert acc. induction rs as [|r rs IH]; intros acc; [simpl; by rewrite sapp_nil|].
  cbn [foldl]. change (print_one true (false, acc) r) with (false, (acc +:+ ", ") +:+ DbGenModel.to_string r).
  rewrite IH. destruct rs as [|r' rs].
  - rewrite sapp_nil, sapp_assoc. done.
  - rewrite !sapp_assoc. done.
Qed.
Lemma print_search_true rs :
  print_search true rs = "-------------- Search --------------" +:+ nl +:+ "Search results: " +:+ nl +:+ "{" +:+
    commas (DbGenModel.to_string <$> rs) +:+ "}" +:+ nl.
Proof.
  unfold print_search. destruct rs as [|r rs]; [done|]. cbn [foldl].
  change (print_one true (true, "") r) with (false, "" +:+ DbGenModel.to_string r). rewrite print_fold.
  destruct rs; [|done]. by rewrite sapp_nil.
Qed.
Lemma print_search_false rs :
  print_search false rs = "-------------- Search --------------" +:+ nl +:+ "Search results: " +:+ nl +:+ "{" +:+ "}" +:+ nl.
Proof.
  unfold print_search. assert (foldl (print_one false) (true, "") rs = (true, "")) as ->; [|done].
  induction rs; done.
Qed.

(** Digits. *)
Definition digit (c : ascii) : Prop := c ∈ ["0"; "1"; "2"; "3"; "4"; "5"; "6"; "7"; "8"; "9"]%char.
Fixpoint digits (s : string) : Prop := match s with "" => True | String c s' => digit c /\ digits s' end.
Lemma digits_uint d : digits (DecimalString.NilEmpty.string_of_uint d).
Proof. induction d; simpl; try done; (split; [apply (bool_decide_unpack _); by vm_compute|done]). Qed.
Lemma to_string_digits n : digits (DbGenModel.to_string n) /\ DbGenModel.to_string n <> "".
Proof.
  unfold DbGenModel.to_string, DecimalString.NilZero.string_of_uint.
  destruct (N.to_uint n) as [|d|d|d|d|d|d|d|d|d|d]; [|(split; [apply (digits_uint (_ d))|done])..].
  split; [split; [apply (bool_decide_unpack _); by vm_compute|done]|done].
Qed.
Lemma digits_split a b x y s t : digits a -> digits b -> ~ digit x -> ~ digit y ->
  a +:+ String x s = b +:+ String y t -> a = b /\ x = y /\ s = t.
Proof.
  revert b. induction a as [|c a IH]; intros [|d b]; simpl; intros Ha Hb Hx Hy E.
  - by injection E as -> ->.
  - injection E as -> _. by destruct Hb.
  - injection E as -> _. by destruct Ha.
  - injection E as -> E. destruct Ha as [_ Ha], Hb as [_ Hb]. destruct (IH b Ha Hb Hx Hy E) as (-> & -> & ->). done.
Qed.
Lemma commas_cons x l : commas (x :: l) = x +:+ match l with [] => "" | _ => ", " +:+ commas l end.
Proof. destruct l; [simpl; by rewrite sapp_nil|done]. Qed.
Lemma commas_inj rs1 rs2 t1 t2 :
  commas (DbGenModel.to_string <$> rs1) +:+ String "}" t1 = commas (DbGenModel.to_string <$> rs2) +:+ String "}" t2 ->
  DbGenModel.to_string <$> rs1 = DbGenModel.to_string <$> rs2 /\ t1 = t2.
Proof.
  assert (Hd1 : ~ digit "}") by (apply (bool_decide_unpack _); by vm_compute).
  assert (Hd2 : ~ digit ",") by (apply (bool_decide_unpack _); by vm_compute).
  assert (Hhead : forall r rs t, exists c s, digit c /\ commas (DbGenModel.to_string <$> r :: rs) +:+ t = String c s).
  { intros r rs t. rewrite fmap_cons, commas_cons, sapp_assoc. destruct (to_string_digits r) as [H Hn].
    destruct (DbGenModel.to_string r) as [|c s]; [done|]. destruct H as [H _]. by exists c, (s +:+ (match DbGenModel.to_string <$> rs with [] => "" | _ => ", " +:+ commas (DbGenModel.to_string <$> rs) end +:+ t)). }
  revert rs2. induction rs1 as [|r1 rs1 IH]; intros [|r2 rs2] E.
  - injection E as ->. done.
  - destruct (Hhead r2 rs2 (String "}" t2)) as (c & s & Hc & Es). rewrite Es in E. injection E as Ec _. subst c. destruct (Hd1 Hc).
  - destruct (Hhead r1 rs1 (String "}" t1)) as (c & s & Hc & Es). rewrite Es in E. injection E as Ec _. subst c. destruct (Hd1 Hc).
  - rewrite !fmap_cons, !commas_cons, !sapp_assoc in E.
    destruct (to_string_digits r1) as [D1 _], (to_string_digits r2) as [D2 _].
    destruct rs1 as [|r1' rs1], rs2 as [|r2' rs2].
    + apply digits_split in E as (E1 & _ & E2); [|done..]. by rewrite !fmap_cons, E1, E2.
    + apply digits_split in E as (_ & E2 & _); done.
    + apply digits_split in E as (_ & E2 & _); done.
    + rewrite !fmap_cons in E. apply digits_split in E as (E1 & _ & E2); [|done..].
      injection E2 as E2. destruct (IH (r2' :: rs2)) as [E3 E4]; [by rewrite !fmap_cons|].
      split; [|done]. rewrite (fmap_cons _ r1), (fmap_cons _ r2), E1. by f_equal.
Qed.

(** * Signals *)
Global Instance mstep_eq_dec : EqDecision mstep.
Proof. solve_decision. Defined.
(** The state of a server program after [k] steps of main. *)
Definition at_step (k : nat) (stop : bool) : sproc :=
  SProc (drop k main_steps) (bool_decide (1 <= k)%nat) (bool_decide (k ∈ [2; 4; 11]%nat)) (bool_decide (7 <= k)%nat)
    (bool_decide (6 <= k)%nat) stop SRunning.
Definition fits (k : nat) (stop : bool) : Prop :=
  (k <= 12)%nat /\ (stop = true -> (7 <= k)%nat) /\ (stop = false -> (k <= 8)%nat).

Lemma at_step_main k stop s : fits k stop -> main_step true (at_step k stop) = Some s ->
  (s = at_step (S k) stop /\ fits (S k) stop) \/ (k = 12%nat /\ p_end s = SExit).
Proof.
  intros (H1 & H2 & H3) E. destruct stop; [specialize (H2 eq_refl); clear H3|specialize (H3 eq_refl); clear H2].
  all: do 13 (destruct k as [|k]; [try lia; vm_compute in E; simplify_eq;
    first [by right|left; split; [reflexivity|unfold fits; split_and!; intros; try done; lia]]|]); lia.
Qed.
Lemma at_step_signal k stop : fits k stop ->
  (k = 0%nat /\ p_end (on_signal (at_step k stop)) = SKilled) \/
  (k ∈ [2; 4; 11]%nat /\ p_end (on_signal (at_step k stop)) = SStuck) \/
  (k <> 0%nat /\ k ∉ [2; 4; 11]%nat /\ (k < 7)%nat /\ on_signal (at_step k stop) = at_step k stop) \/
  (k ∉ [2; 4; 11]%nat /\ (7 <= k)%nat /\ on_signal (at_step k stop) = at_step k true /\ fits k true).
Proof.
  intros (H1 & H2 & H3). destruct stop; [specialize (H2 eq_refl); clear H3|specialize (H3 eq_refl); clear H2].
  all: do 13 (destruct k as [|k]; [try lia;
    first [(left; split; reflexivity)
      |(right; left; split; [apply (bool_decide_unpack _); by vm_compute|reflexivity])
      |(right; right; left; split_and!; [done|apply (bool_decide_unpack _); by vm_compute|lia|reflexivity])
      |(right; right; right; split_and!; [apply (bool_decide_unpack _); by vm_compute|lia|reflexivity|unfold fits; split_and!; intros; try done; lia])]|]); lia.
Qed.
Lemma sp_reach s : rtc (sp_step true) sproc0 s -> p_end s = SRunning -> exists k stop, s = at_step k stop /\ fits k stop.
Proof.
  revert s. apply (rtc_ind_r (fun s => p_end s = SRunning -> exists k stop, s = at_step k stop /\ fits k stop)); [|intros s s' _ Hs IH]; intros Hr.
  - exists 0%nat, false. split; [done|]. unfold fits. split_and!; intros; try done; lia.
  - destruct Hs as [s s' Em|s Hr0].
    + assert (Hr0 : p_end s = SRunning) by (unfold main_step in Em; by destruct (p_end s)).
      destruct (IH Hr0) as (k & stop & -> & Hf). destruct (at_step_main k stop s' Hf Em) as [[-> Hf']|[_ He]]; [eauto|congruence].
    + destruct (IH Hr0) as (k & stop & -> & Hf). destruct (at_step_signal k stop Hf) as [[_ He]|[[_ He]|[(_ & _ & _ & He)|(_ & _ & He & Hf')]]].
      * rewrite He in Hr. done.
      * rewrite He in Hr. done.
      * rewrite He. eauto.
      * rewrite He. eauto.
Qed.
Lemma quiet_false k s : fits k false -> rtc (sp_quiet true) (at_step k false) s -> exists k', s = at_step k' false /\ fits k' false.
Proof.
  intros Hf H. remember (at_step k false) as s0 eqn:E. revert k Hf E.
  induction H as [s|s1 s2 s3 Hq _ IH]; intros k Hf ->; [eauto|].
  destruct (at_step_main k false s2 Hf Hq) as [[-> Hf']|[-> _]]; [by eapply IH|]. destruct Hf as (_ & _ & H). specialize (H eq_refl). lia.
Qed.
Lemma quiet_true_end k : fits k true -> exists s, rtc (sp_quiet true) (at_step k true) s /\ p_end s = SExit.
Proof.
  intros Hf. assert (Hk : (k <= 12)%nat) by apply Hf. assert (H7 : (7 <= k)%nat) by (by apply Hf).
  remember (12 - k)%nat as n eqn:En. revert k Hf Hk H7 En. induction n as [|n IH]; intros k Hf Hk H7 En.
  - assert (k = 12%nat) as -> by lia. eexists. split; [apply rtc_once; reflexivity|done].
  - destruct (IH (S k)) as (s & H & He); [unfold fits; split_and!; intros; try done; lia|lia|lia|lia|].
    exists s. split; [|done]. eapply rtc_l; [|exact H]. unfold sp_quiet.
    do 13 (destruct k as [|k]; [first [lia|reflexivity]|]). lia.
Qed.
Lemma quiet_true k s : fits k true -> rtc (sp_quiet true) (at_step k true) s ->
  (exists k', s = at_step k' true /\ fits k' true) \/ p_end s = SExit.
Proof.
  intros Hf H. remember (at_step k true) as s0 eqn:E. revert k Hf E.
  induction H as [s|s1 s2 s3 Hq Hr IH]; intros k Hf ->; [eauto|].
  destruct (at_step_main k true s2 Hf Hq) as [[-> Hf']|[-> He]]; [by eapply IH|].
  destruct Hr as [|s2 s2' s3 Hq' _]; [by right|]. unfold sp_quiet, main_step in Hq'. by rewrite He in Hq'.
Qed.
