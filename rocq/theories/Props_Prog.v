(** Final theorems about the programs of src/ (properties C103 to C107). *)
From stdpp Require Import prelude strings.
From Coq Require Import ZArith NArith Ascii Lia.
From Verif Require Import Base DbGenModel ProgModel ProgSpec ProgProofs DbGenThreads.
Local Open Scope string_scope.
Local Open Scope list_scope.
Local Arguments String.append : simpl nomatch.

(** ** C103: command lines of the clients. *)
(** A client gets beyond its options exactly on the command lines of the grammar. *)
Theorem C103_accepts :
  forall stod ok answers p args,
    (exists r, client_main stod ok answers p args = Go r) <->
    exists items tail, Forall (wf_item (c_flags p) c_withargs) items /\ counts_ok stod (options items) /\
      args = render items tail.
Proof.
  intros stod ok answers p args. unfold client_main. split.
  - intros [r E]. destruct (c_switch stod p _ copts0) as [s| | |] eqn:Es; try done. by eapply c_accepts.
  - intros (items & tail & H1 & H2 & ->). rewrite c_scan by done. cbn [fst snd].
    rewrite (c_switch_ok _ _ _ _ (options_handled _ _ H1) H2). by eexists.
Qed.
Print Assumptions C103_accepts.

(** Then it opens the database, loads the files, generates and searches the keywords, in the
    order of the command line; if nothing throws it returns 0, otherwise it is terminated at
    the first exception. *)
Definition c_db (p : client) : string := match p with SophosC => "test.csdb" | DianaC => "test.dcdb" end.
Theorem C103_runs :
  forall stod ok answers p items tail,
    Forall (wf_item (c_flags p) c_withargs) items -> counts_ok stod (options items) ->
    let acts := expected stod "localhost:4240" (c_db p) items tail in
    exists did out e, client_main stod ok answers p (render items tail) = Go (did, out, e) /\
      ((did = acts /\ e = Returns 0 /\ forall k a, acts !! k = Some a -> ok k a = true) \/
       (exists k a, did = take (S k) acts /\ acts !! k = Some a /\ ok k a = false /\ e = Terminated /\
          forall j b, (j < k)%nat -> acts !! j = Some b -> ok j b = true)).
Proof.
  intros stod ok answers p items tail H1 H2 acts. unfold client_main. rewrite c_scan by done. cbn [fst snd].
  rewrite (c_switch_ok _ _ _ _ (options_handled _ _ H1) H2). cbn [o_files o_db o_rnd o_print copts0 app andb].
  assert (E : c_acts p (COpts (files (options items)) (default "" (last_arg "b" (options items)))
      (count_from stod 0 (options items)) (prints (options items))) (words items tail) = acts).
  { unfold acts, expected, c_acts. cbn [o_files o_db o_rnd].
    assert (Ec : count_from stod 0 (options items) = count stod (options items)) by done.
    assert (Ed : (if bool_decide (default "" (last_arg "b" (options items)) = "") then c_default_db p
        else default "" (last_arg "b" (options items))) = database_of (c_db p) (options items)).
    { unfold database_of. destruct (last_arg "b" (options items)) as [[|x db]|]; cbn; [by destruct p|done|by destruct p]. }
    rewrite Ec. fold copts0. cbn [o_db copts0]. rewrite Ed.
    change ([AOpen "localhost:4240" (database_of (c_db p) (options items))] ++ ?l)
      with (AOpen "localhost:4240" (database_of (c_db p) (options items)) :: l).
    f_equal; [by destruct p|]. f_equal. f_equal. destruct (decide (count stod (options items) = 0%N)) as [Hd|Hd]; [rewrite bool_decide_eq_false_2 by lia|rewrite bool_decide_eq_true_2 by lia]; done. }
  fold copts0. cbn [o_files o_db o_rnd o_print copts0 app andb]. rewrite E. clear E.
  destruct (c_run_stop ok answers (prints (options items)) acts 0) as [Hc|(acts1 & a & acts2 & Ea & Hc & Hf & Er)].
  - rewrite c_run_ok by done. do 3 eexists. split; [done|]. left. split_and!; [done|done|exact Hc].
  - rewrite Er. do 3 eexists. split; [done|]. right. exists (length acts1), a. rewrite Ea. split_and!.
    + rewrite (cons_middle a acts1 acts2), app_assoc, take_app_alt; [done|]. rewrite app_length. simpl. lia.
    + by rewrite list_lookup_middle.
    + exact Hf.
    + done.
    + intros j b Hj Hb. rewrite lookup_app_l in Hb by done. exact (Hc j b Hb).
Qed.
Print Assumptions C103_runs.

(** A command line with options of all kinds between the keywords; stod knows one number. *)
Definition ex_items : list item :=
  [WithArg ["q"; "d"] "l" "f1.json" true; Word "kw1"; WithArg [] "b" "db1" false; WithArg [] "r" "1e3" false; Word "-";
   WithArg [] "b" "-x" false; Flags ["q"; "d"]]%char.
Definition ex_stod (s : string) : stod_res := if bool_decide (s = "1e3") then StodValue 1000 else StodThrows.
Example C103_example :
  render ex_items (Some ["-w"]) = ["-qdlf1.json"; "kw1"; "-b"; "db1"; "-r"; "1e3"; "-"; "-b"; "-x"; "-qd"; "--"; "-w"] /\
  Forall (wf_item (c_flags DianaC) c_withargs) ex_items /\ counts_ok ex_stod (options ex_items) /\
  expected ex_stod "localhost:4240" (c_db DianaC) ex_items (Some ["-w"]) =
    [AOpen "localhost:4240" "-x"; ALoad default_file; ALoad "f1.json"; ALoad default_file; AGenerate 1000;
     ASearch "kw1"; ASearch "-"; ASearch "-w"; AClose].
Proof.
  split_and!; [by vm_compute| | |by vm_compute].
  - repeat (apply Forall_cons; split); [..|by apply Forall_nil];
      first [by right|by left|(cbn [wf_item]; split_and!; first [done|apply (bool_decide_unpack _); by vm_compute])].
  - intros arg H. assert (arg = "1e3") as ->.
    { revert H. unfold options, ex_items. simpl. intros H. repeat (apply elem_of_cons in H as [H|H]; [simplify_eq; try done|]).
      by apply elem_of_nil in H. }
    exists 1000%Z. by vm_compute.
Qed.

(** ** C104: wrong command lines of the clients. *)
Definition c_grammar_of (p : client) : list ascii * list ascii :=
  match p with SophosC => (["d"], ["l"; "b"; "o"; "i"; "r"])%char | DianaC => (["d"; "q"], ["l"; "b"; "r"])%char end.
Lemma c_grammar p : grammar (c_optstring p) (c_grammar_of p).1 (c_grammar_of p).2.
Proof. destruct p; [exact sophos_c_grammar|exact diana_c_grammar]. Qed.
Lemma c_wider p i : wf_item (c_flags p) c_withargs i -> wf_item (c_grammar_of p).1 (c_grammar_of p).2 i.
Proof.
  destruct p; [|done]. destruct i as [w|fs|fs c arg att]; simpl; [done|done|].
  intros (H1 & H2 & H3). split_and!; [done| |done]. unfold c_withargs in H2. set_solver.
Qed.
Lemma c_switch_app stod p os evs s : Forall (handled p) os -> counts_ok stod os ->
  exists s', c_switch stod p ((evo <$> os) ++ evs) s = c_switch stod p evs s'.
Proof.
  intros H. revert s. induction H as [|[c arg] os Hc _ IH]; intros s Hr; [by exists s|].
  assert (Hr' : counts_ok stod os) by (intros a Ha; apply Hr; by right).
  assert (Hcs : c = "l"%char \/ c = "b"%char \/ c = "d"%char \/ (c = "q"%char /\ p = DianaC) \/ c = "r"%char).
  { unfold handled in Hc. destruct p; set_unfold in Hc; simpl in Hc; tauto. }
  rewrite fmap_cons. cbn [app c_switch evo fst snd]. repeat (case_bool_decide; [by apply IH|]).
  case_bool_decide as H5; [|naive_solver]. subst. destruct (Hr arg) as (z & Ez & Hz); [by left|].
  unfold count_of. rewrite Ez, bool_decide_eq_true_2 by done. by apply IH.
Qed.
Lemma flags_handled p fs : Forall (fun f => f ∈ c_flags p) fs -> Forall (handled p) ((fun c => (c, "")) <$> fs).
Proof.
  intros H. apply Forall_fmap. eapply Forall_impl; [exact H|]. intros c Hc. unfold handled. simpl. apply elem_of_app. by left.
Qed.
Lemma flags_no_r p fs : Forall (fun f => f ∈ c_flags p) fs -> forall arg, ("r"%char, arg) ∉ (fun c => (c, "")) <$> fs.
Proof.
  intros H arg (c & [= <- _] & Hc)%elem_of_list_fmap. rewrite Forall_forall in H. apply H in Hc.
  revert Hc. destruct p; apply (bool_decide_unpack _); by vm_compute.
Qed.

(** What main sees of a wrong word after right options. *)
Lemma c_bad stod ok answers p items fs evs c more w rest :
  Forall (wf_item (c_flags p) c_withargs) items -> counts_ok stod (options items) ->
  Forall (fun f => f ∈ c_flags p) fs ->
  scan (c_optstring p) (("-" +:+ w) :: rest) = (fl fs ++ EvBad c :: evs, more) ->
  client_main stod ok answers p (render items None ++ ("-" +:+ w) :: rest) = Leave 1 (Some (diagnose (c_needs p) c)).
Proof.
  intros H1 H2 H3 E. unfold client_main, render. rewrite app_nil_r.
  rewrite (scan_items _ _ _ (c_grammar p)) by (eapply Forall_impl; [exact H1|apply c_wider]).
  rewrite E. cbn [fst snd].
  destruct (c_switch_app stod p (options items) (fl fs ++ EvBad c :: evs) copts0 (options_handled _ _ H1) H2) as [s1 ->].
  replace (fl fs) with (evo <$> ((fun c => (c, "")) <$> fs)) by (by rewrite <- list_fmap_compose).
  destruct (c_switch_app stod p ((fun c => (c, "")) <$> fs) (EvBad c :: evs) s1 (flags_handled _ _ H3)) as [s2 ->]; [|done].
  intros arg Ha. destruct (flags_no_r p fs H3 arg Ha).
Qed.

(** A missing argument is reported as such. *)
Theorem C104_missing :
  forall stod ok answers p items fs c,
    Forall (wf_item (c_flags p) c_withargs) items -> counts_ok stod (options items) ->
    Forall (fun f => f ∈ c_flags p) fs -> c ∈ c_withargs ->
    client_main stod ok answers p (render items None ++ ["-" +:+ (str fs +:+ String c "")])
      = Leave 1 (Some (NeedsArgument c)).
Proof.
  intros stod ok answers p items fs c H1 H2 H3 Hc.
  assert (HF : Forall (fun f => f ∈ (c_grammar_of p).1) fs) by (destruct p; exact H3).
  assert (Hc' : c ∈ (c_grammar_of p).2) by (destruct p; [unfold c_withargs in Hc; set_solver|done]).
  erewrite (c_bad _ _ _ _ _ fs [] c [] _ []); [|done..|].
  - assert (c ∈ c_needs p) by (revert Hc; unfold c_withargs; destruct p; set_solver).
    unfold diagnose. by rewrite bool_decide_eq_true_2.
  - destruct (str_head_ne _ _ _ (c_grammar p) (fs ++ [c]) "") as [N1 N2];
      [apply Forall_app; split; [eapply Forall_impl; [exact HF|]; auto|constructor; [by right|constructor]]|by destruct fs|].
    rewrite sapp_nil, str_app in N1, N2. rewrite scan_cluster by done.
    by rewrite (cluster_last _ _ _ (c_grammar p)).
Qed.
Print Assumptions C104_missing.

(** An unknown option is reported as such, but for -o, -i and -t. *)
Definition printable (c : ascii) : Prop := (32 <= nat_of_ascii c <= 126)%nat.
Theorem C104_unknown :
  forall stod ok answers p items fs c w rest,
    Forall (wf_item (c_flags p) c_withargs) items -> counts_ok stod (options items) ->
    Forall (fun f => f ∈ c_flags p) fs -> c ∉ c_flags p ++ c_withargs -> c ∉ ["o"; "i"; "t"]%char ->
    ~ (fs = [] /\ c = "-"%char /\ w = "") ->
    exists d, client_main stod ok answers p (render items None ++ ("-" +:+ (str fs +:+ String c w)) :: rest)
      = Leave 1 (Some d) /\ (printable c -> d = UnknownOption c) /\ (~ printable c -> d = UnknownChar c).
Proof.
  intros stod ok answers p items fs c w rest H1 H2 H3 Hc Hc2 Hne.
  assert (HF : Forall (fun f => f ∈ (c_grammar_of p).1) fs) by (destruct p; exact H3).
  assert (Hn : opt_of (c_optstring p) c = None).
  { destruct (opt_of (c_optstring p) c) as [[]|] eqn:E; [..|done].
    - apply (gr_arg _ _ _ (c_grammar p)) in E. exfalso. revert E Hc Hc2. unfold c_withargs. destruct p; set_solver.
    - apply (gr_flag _ _ _ (c_grammar p)) in E. exfalso. revert E Hc. destruct p; set_solver. }
  exists (diagnose (c_needs p) c). split.
  - destruct (cluster (c_optstring p) w) as [evs o] eqn:Ec.
    assert (Ecl : cluster (c_optstring p) (str fs +:+ String c w) = (fl fs ++ EvBad c :: evs, o)).
    { rewrite (cluster_flags _ _ _ (c_grammar p)) by done. simpl. rewrite Hn, Ec. done. }
    assert (N : str fs +:+ String c w <> "" /\ str fs +:+ String c w <> "-").
    { destruct fs as [|f fs].
      - split; [done|]. simpl. intros [= -> ->]. by apply Hne.
      - destruct (str_head_ne _ _ _ (c_grammar p) (f :: fs) (String c w)) as [N1 N2]; [eapply Forall_impl; [exact HF|]; auto|done|done]. }
    destruct N as [N1 N2].
    assert (exists evs' more, scan (c_optstring p) (("-" +:+ (str fs +:+ String c w)) :: rest) = (fl fs ++ EvBad c :: evs', more)) as (evs' & more & Es).
    { rewrite scan_cluster, Ecl by done. destruct o as [o|]; [destruct rest as [|arg rest]|]; rewrite <- app_assoc; cbn; eauto. }
    by eapply c_bad.
  - assert (c ∉ c_needs p) as Hnd.
    { revert Hc Hc2. unfold c_withargs. destruct p; set_solver. }
    unfold diagnose. rewrite bool_decide_eq_false_2 by done. unfold isprint, printable. split; intros Hp.
    + by rewrite bool_decide_eq_true_2.
    + by rewrite bool_decide_eq_false_2.
Qed.
Print Assumptions C104_unknown.

(** The statuses: a Diana client that stops at its options returns 1 and says why. *)
Theorem C104_status :
  forall stod ok answers args z d, client_main stod ok answers DianaC args = Leave z d -> z = 1%Z /\ exists m, d = Some m.
Proof.
  intros stod ok answers args z d. unfold client_main.
  assert (H : forall evs s, (forall c arg, EvOpt c arg ∈ evs -> opt_of (c_optstring DianaC) c <> None) ->
    forall z d, c_switch stod DianaC evs s = Leave z d -> z = 1%Z /\ exists m, d = Some m).
  { induction evs as [|[c arg|c] evs IH]; intros s Ho z' d' E; [done| |injection E as <- <-; eauto].
    assert (Ho' : forall c arg, EvOpt c arg ∈ evs -> opt_of (c_optstring DianaC) c <> None) by (intros ???; eapply Ho; by right).
    cbn [c_switch] in E. repeat (case_bool_decide; [by eapply IH|]). case_bool_decide.
    - unfold count_of in E. repeat case_match; simplify_eq. by eapply IH.
    - exfalso. specialize (Ho c arg ltac:(by left)). destruct (opt_of _ c) as [[]|] eqn:Eo; [..|done].
      + apply (gr_arg _ _ _ diana_c_grammar) in Eo. set_unfold in Eo. naive_solver.
      + apply (gr_flag _ _ _ diana_c_grammar) in Eo. set_unfold in Eo. naive_solver. }
  destruct (c_switch stod DianaC _ copts0) as [s|z' d'| |] eqn:Es; try done. intros [= <- <-].
  eapply H; [|exact Es]. intros c arg Hin. by eapply scan_known.
Qed.
Print Assumptions C104_status.

(** The Sophos client has two options that make it exit with status 255 and no message; both
    clients take an unknown option for one without its argument. *)
Theorem C104_refuted :
  (forall stod ok answers, client_main stod ok answers SophosC ["-o"; "x"] = Leave 255 None /\
     client_main stod ok answers SophosC ["-i"; "x"] = Leave 255 None) /\
  (forall stod ok answers, client_main stod ok answers DianaC ["-o"; "x"] = Leave 1 (Some (NeedsArgument "o"))) /\
  (forall stod ok answers p, client_main stod ok answers p ["-tx"] = Leave 1 (Some (NeedsArgument "t"))).
Proof. split_and!; intros; try (destruct p); try split; by vm_compute. Qed.
Print Assumptions C104_refuted.

(** The number of -r: if it does not fit in 32 bits the program is undefined, if it is no
    number the program dies of an exception; in both cases before it opens anything. *)
Theorem C104_number :
  forall stod ok answers p items arg rest,
    Forall (wf_item (c_flags p) c_withargs) items -> counts_ok stod (options items) ->
    let args := render items None ++ "-r" :: arg :: rest in
    (stod arg = StodThrows -> client_main stod ok answers p args = Dies) /\
    (stod arg = StodNotFinite -> client_main stod ok answers p args = Undef) /\
    (forall z, stod arg = StodValue z -> ~ (0 <= z < 2 ^ 32)%Z -> client_main stod ok answers p args = Undef).
Proof.
  intros stod ok answers p items arg rest H1 H2 args.
  assert (Hr : exists s1 evs, client_main stod ok answers p args =
    match c_switch stod p (EvOpt "r" arg :: evs) s1 with
    | Go s => Go (c_run ok answers (o_print s) 0 (c_acts p s (scan (c_optstring p) args).2))
    | Leave z d => Leave z d | Dies => Dies | Undef => Undef end).
  { destruct (c_switch_app stod p (options items) (EvOpt "r" arg :: (scan (c_optstring p) rest).1) copts0 (options_handled _ _ H1) H2) as [s1 Es].
    exists s1, (scan (c_optstring p) rest).1. rewrite <- Es. unfold client_main.
    assert (Esc : (scan (c_optstring p) args).1 = (evo <$> options items) ++ EvOpt "r" arg :: (scan (c_optstring p) rest).1); [|by rewrite Esc].
    unfold args, render. rewrite app_nil_r.
    rewrite (scan_items _ _ _ (c_grammar p)) by (eapply Forall_impl; [exact H1|apply c_wider]). cbn [fst].
    change ("-r" :: arg :: rest) with (render_item (WithArg [] "r" arg false) ++ rest).
    rewrite (scan_item _ _ _ (c_grammar p)); [done|]. split_and!; [constructor|destruct p; set_solver|done]. }
  destruct Hr as (s1 & evs & ->). cbn [c_switch]. rewrite !(bool_decide_eq_false_2 ("r"%char = _)) by done.
  rewrite (bool_decide_eq_false_2 (_ /\ _)) by (intros [? _]; done). rewrite (bool_decide_eq_true_2 ("r"%char = _)) by done.
  unfold count_of. split_and!; [intros ->; done..|]. intros z -> Hz. by rewrite bool_decide_eq_false_2.
Qed.
Print Assumptions C104_number.
Example C104_example :
  client_main (fun _ => StodValue 5000000000) (fun _ _ => true) (fun _ => []) DianaC ["kw"; "-db"; "x"; "-r"; "5e9"; "-z"] = Undef /\
  client_main (fun _ => StodThrows) (fun _ _ => true) (fun _ => []) SophosC ["-d"; "-r"; "many"] = Dies /\
  client_main ex_stod (fun _ _ => true) (fun _ => []) DianaC ["kw"; "-qr"; "1e3"; "-ql"] = Leave 1 (Some (NeedsArgument "l")) /\
  client_main ex_stod (fun _ _ => true) (fun _ => []) SophosC ["-d"; "-dq"; "-d"] = Leave 1 (Some (UnknownOption "q")).
Proof. split_and!; by vm_compute. Qed.

(** ** C105: the servers. *)
(** Command lines of the servers: the words are ignored. *)
Definition s_db (p : server) : string := match p with SophosS => "test.ssdb" | DianaS => "test.dsdb" end.
Definition s_addr (p : server) : string := match p with SophosS => "0.0.0.0:4240" | DianaS => "0.0.0.0:4241" end.
Theorem C105_accepts :
  forall p args,
    (forall r, server_main p args = Go r <->
      exists items tail, Forall (wf_item s_flags s_withargs) items /\ args = render items tail /\
        r = (s_addr p, database_of (s_db p) (options items), bool_decide (Forall (fun o => o.1 <> "s"%char) (options items)))) /\
    (forall r, server_main p args = r -> (exists x, r = Go x) \/ exists d, r = Leave 1 (Some d)).
Proof.
  intros p args.
  assert (Hgo : forall items tail, Forall (wf_item s_flags s_withargs) items ->
    server_main p (render items tail) =
      Go (s_addr p, database_of (s_db p) (options items), bool_decide (Forall (fun o => o.1 <> "s"%char) (options items)))).
  { intros items tail HF. unfold server_main. rewrite (scan_render _ _ _ (s_grammar p)) by done. cbn [fst].
    rewrite s_switch_ok.
    - cbn [fst snd andb]. f_equal. f_equal. f_equal. unfold database_of.
      destruct (last_arg "b" (options items)) as [[|x db]|]; cbn; [by destruct p|done|by destruct p].
    - apply Forall_forall. intros o (i & Hi & Ho)%options_elem. rewrite Forall_forall in HF.
      exact (item_handled _ _ _ _ (HF i Hi) Ho). }
  split.
  - intros r. split.
    + intros E. assert (Hg : Forall good (scan (s_optstring p) args).1).
      { unfold server_main in E. destruct (s_switch p _ true "") as [x| | |] eqn:Es; try done. by eapply s_switch_go. }
      destruct (scan_inv _ _ _ (s_grammar p) (length args) args) as (items & tail & HF & ->); [done|done|].
      exists items, tail. split_and!; [done|done|]. rewrite Hgo in E by done. by injection E as <-.
    + intros (items & tail & HF & -> & ->). by apply Hgo.
  - intros r <-. unfold server_main.
    assert (H : forall evs, (forall c arg, EvOpt c arg ∈ evs -> opt_of (s_optstring p) c <> None) -> forall async db,
      (exists x, s_switch p evs async db = Go x) \/ exists d, s_switch p evs async db = Leave 1 (Some d)).
    { induction evs as [|[c arg|c] evs IH]; intros Ho async db; [left; by eexists| |right; by eexists].
      assert (Ho' : forall c arg, EvOpt c arg ∈ evs -> opt_of (s_optstring p) c <> None) by (intros ???; eapply Ho; by right).
      cbn [s_switch]. repeat (case_bool_decide; [by apply IH|]). exfalso. specialize (Ho c arg ltac:(by left)).
      destruct (opt_of _ c) as [[]|] eqn:Eo; [..|done].
      - apply (gr_arg _ _ _ (s_grammar p)) in Eo. apply elem_of_list_singleton in Eo. done.
      - apply (gr_flag _ _ _ (s_grammar p)) in Eo. apply elem_of_list_singleton in Eo. done. }
    destruct (H (scan (s_optstring p) args).1 (fun c arg Hin => scan_known _ _ _ (le_n _) c arg Hin) true "") as [[x ->]|[d ->]]; [left|right]; by eexists.
Qed.
Print Assumptions C105_accepts.
Example C105_example :
  server_main SophosS ["word"; "-sb"; "db1"; "-b"; ""; "--"; "-z"] = Go ("0.0.0.0:4240", "test.ssdb", false) /\
  server_main DianaS ["-bdb1"; "-"] = Go ("0.0.0.0:4241", "db1", true) /\
  server_main DianaS ["-bdb1"; "-sx"] = Leave 1 (Some (UnknownOption "x")).
Proof. split_and!; by vm_compute. Qed.

(** The message of a wrong option: a missing argument is taken for an unknown option. *)
Theorem C105_message_refuted :
  forall p, server_main p ["-b"] = Leave 1 (Some (UnknownOption "b")) /\
    server_main p ["-ix"] = Leave 1 (Some (NeedsArgument "i")).
Proof. intros []; split; by vm_compute. Qed.
Print Assumptions C105_message_refuted.

(** Whatever the command lines: the Sophos client asks for the port of the Sophos server. *)
Definition opens (p : client) (args : list string) (target : string) : Prop :=
  exists stod ok answers db did out e, client_main stod ok answers p args = Go (AOpen target db :: did, out, e).
Definition listens_on (p : server) (args : list string) (address : string) : Prop :=
  exists db async, server_main p args = Go (address, db, async).
Lemma opens_target p args target : opens p args target -> target = "localhost:4240".
Proof.
  intros (stod & ok & answers & db & did & out & e & E). unfold client_main in E.
  destruct (c_switch _ _ _ _) as [s| | |]; try done. injection E as E.
  unfold c_acts in E. cbn [c_run] in E. destruct (ok 0%nat _); injection E as E; by destruct p.
Qed.
Lemma listens_address p args address : listens_on p args address -> address = s_addr p.
Proof.
  intros (db & async & E). unfold server_main in E. destruct (s_switch _ _ _ _) as [s| | |]; try done. injection E as E. by destruct p.
Qed.
Theorem C105_ports :
  forall args args' target address,
    opens SophosC args target -> listens_on SophosS args' address -> port target = port address.
Proof. intros args args' target address ->%opens_target ->%listens_address. done. Qed.
Print Assumptions C105_ports.

(** The Diana client never asks for the port of the Diana server, but for that of the Sophos
    server. *)
Theorem C105_ports_refuted :
  (exists args args' target address, opens DianaC args target /\ listens_on DianaS args' address) /\
  (forall args args' target address, opens DianaC args target -> listens_on DianaS args' address ->
    port target <> port address) /\
  (forall args args' target address, opens DianaC args target -> listens_on SophosS args' address ->
    port target = port address).
Proof.
  split_and!.
  - exists ["-q"; "kw"], ["-s"], "localhost:4240", "0.0.0.0:4241". split.
    + exists (fun _ => StodThrows), (fun _ _ => true), (fun _ => []). do 4 eexists. by vm_compute.
    + do 2 eexists. by vm_compute.
  - intros args args' target address ->%opens_target ->%listens_address. done.
  - intros args args' target address ->%opens_target ->%listens_address. done.
Qed.
Print Assumptions C105_ports_refuted.

(** ** C106: what the clients print. *)
(** The text of one search. *)
Definition search_text (rs : list N) : string :=
  "-------------- Search --------------" +:+ nl +:+ "Search results: " +:+ nl +:+ "{" +:+ commas (to_string <$> rs) +:+ "}" +:+ nl.
Lemma sapp_inj (a b c : string) : a +:+ b = a +:+ c -> b = c.
Proof. induction a as [|x a IH]; [done|]. simpl. intros E. injection E as E. by apply IH. Qed.
Lemma search_text_inj rs1 rs2 t1 t2 : search_text rs1 +:+ t1 = search_text rs2 +:+ t2 -> rs1 = rs2 /\ t1 = t2.
Proof.
  unfold search_text. rewrite !sapp_assoc. intros E. do 5 apply sapp_inj in E.
  apply commas_inj in E as [E1 E2]. split.
  - revert rs2 E1. induction rs1 as [|r rs1 IH]; intros [|r2 rs2] E1; try done. rewrite !fmap_cons in E1.
    injection E1 as Er E1. apply to_string_inj in Er as ->. f_equal. by apply IH.
  - by injection E2.
Qed.

Lemma outputs_ext f g answers i l : (forall rs, f rs = g rs) -> outputs f answers i l = outputs g answers i l.
Proof. intros H. revert i. induction l as [|[] l IH]; intros i; cbn [outputs]; rewrite ?H, ?IH; done. Qed.

(** The output of the client is the texts of its searches, in order; with -q no result is
    printed, and the braces are. *)
Theorem C106_output :
  forall stod ok answers p items tail,
    Forall (wf_item (c_flags p) c_withargs) items -> counts_ok stod (options items) ->
    exists did out e, client_main stod ok answers p (render items tail) = Go (did, out, e) /\
      let acts := match e with Returns _ => did | Terminated => take (length did - 1) did end in
      out = outputs (fun rs => search_text (if decide (Exists (fun o => o.1 = "q"%char) (options items)) then [] else rs))
              answers 0 acts.
Proof.
  intros stod ok answers p items tail H1 H2. unfold client_main. rewrite c_scan by done. cbn [fst snd].
  rewrite (c_switch_ok _ _ _ _ (options_handled _ _ H1) H2). cbn [o_print copts0 andb].
  set (acts := c_acts p _ _). set (f := fun rs => search_text _).
  assert (Hf : forall rs, print_search (prints (options items)) rs = f rs).
  { intros rs. unfold f, prints. destruct (decide (Exists _ _)) as [Hq|Hq].
    - rewrite bool_decide_eq_false_2 by (apply Exists_exists in Hq as (o & Hin & Eq); rewrite Forall_forall; intros H; exact (H o Hin Eq)). apply print_search_false.
    - rewrite bool_decide_eq_true_2; [apply print_search_true|]. apply Forall_forall. intros o Ho Eq. apply Hq, Exists_exists. eauto. }
  assert (Ho : forall l i, outputs (print_search (prints (options items))) answers i l = outputs f answers i l)
    by (intros; by apply outputs_ext).
  destruct (c_run_stop ok answers (prints (options items)) acts 0) as [Hc|(acts1 & a & acts2 & Ea & Hc & Hf' & Er)].
  - rewrite c_run_ok by done. do 3 eexists. split; [done|]. apply Ho.
  - rewrite Er. do 3 eexists. split; [done|]. cbn beta iota zeta. rewrite Ho. f_equal.
    rewrite app_length. simpl. rewrite Nat.add_sub, take_app. done.
Qed.
Print Assumptions C106_output.

(** Without -q the output determines the results of every search: two runs of a program with
    one command line that print the same received the same results in the same order. *)
Fixpoint results (answers : nat -> list N) (i : nat) (acts : list act) : list (list N) :=
  match acts with
  | [] => []
  | ASearch _ :: acts' => answers i :: results answers (S i) acts'
  | _ :: acts' => results answers (S i) acts'
  end.
Theorem C106_faithful :
  forall stod p args a1 a2 did out,
    client_main stod (fun _ _ => true) a1 p args = Go (did, out, Returns 0) ->
    client_main stod (fun _ _ => true) a2 p args = Go (did, out, Returns 0) ->
    (forall items tail, args = render items tail -> Forall (wf_item (c_flags p) c_withargs) items ->
       Forall (fun o => o.1 <> "q"%char) (options items)) ->
    results a1 0 did = results a2 0 did.
Proof.
  intros stod p args a1 a2 did out E1 E2 Hq.
  destruct (proj1 (C103_accepts stod (fun _ _ => true) a1 p args)) as (items & tail & H1 & H2 & ->); [by eexists|].
  specialize (Hq items tail eq_refl H1).
  assert (Hx : forall a, client_main stod (fun _ _ => true) a p (render items tail) = Go (did, out, Returns 0) ->
    out = outputs search_text a 0 did).
  { intros a E. destruct (C106_output stod (fun _ _ => true) a p items tail H1 H2) as (did' & out' & e & E' & Ho).
    rewrite E' in E. injection E as -> -> ->. cbn beta iota zeta in Ho. rewrite Ho at 1.
    apply outputs_ext. intros rs. rewrite decide_False; [done|]. intros (o & Hin & Eq)%Exists_exists. rewrite Forall_forall in Hq. exact (Hq o Hin Eq). }
  apply Hx in E1. apply Hx in E2. clear Hx. rewrite E1 in E2. clear E1 out. revert E2. generalize 0%nat.
  induction did as [|[] did IH]; intros i E; cbn [outputs results] in *; try (by apply IH); [done|].
  apply search_text_inj in E as [-> E]. f_equal. by apply IH.
Qed.
Print Assumptions C106_faithful.
Example C106_example :
  client_main ex_stod (fun _ _ => true) (fun i => if decide (i = 1%nat) then [7; 30]%N else []) SophosC ["a"; "b"] =
    Go ([AOpen "localhost:4240" "test.csdb"; ASearch "a"; ASearch "b"; AClose], search_text [7; 30]%N +:+ search_text [], Returns 0) /\
  search_text [7; 30]%N = "-------------- Search --------------" +:+ nl +:+ "Search results: " +:+ nl +:+ "{7, 30}" +:+ nl.
Proof. split; by vm_compute. Qed.

(** ** C107: signals. *)
(** What a signal does to a server program whose port can be bound, according to the steps
    that are left to main. *)
Theorem C107_signal :
  forall s, rtc (sp_step true) sproc0 s -> p_end s = SRunning ->
    (MHandlers ∈ p_left s -> p_end (on_signal s) = SKilled) /\
    (head (p_left s) = Some MLogUnlock -> p_end (on_signal s) = SStuck) /\
    (MHandlers ∉ p_left s -> head (p_left s) <> Some MLogUnlock -> MAssign ∈ p_left s ->
       on_signal s = s /\ runs_for_ever true s) /\
    (MAssign ∉ p_left s -> head (p_left s) <> Some MLogUnlock -> will_exit true (on_signal s)).
Proof.
  intros s Hs Hr. destruct (sp_reach s Hs Hr) as (k & stop & -> & Hf).
  assert (Hk : (k <= 12)%nat) by apply Hf.
  assert (Hleft : (MHandlers ∈ p_left (at_step k stop) <-> k = 0%nat) /\ (head (p_left (at_step k stop)) = Some MLogUnlock <-> k ∈ [2; 4; 11]%nat) /\
    (MAssign ∈ p_left (at_step k stop) <-> (k < 7)%nat)).
  { cbn [at_step p_left]. clear Hf Hs Hr. do 13 (destruct k as [|k]; [apply (bool_decide_unpack _); by vm_compute|]). lia. }
  destruct Hleft as (L1 & L2 & L3). rewrite L1, L2, L3. clear L1 L2 L3.
  assert (Hstop : (k < 7)%nat -> stop = false).
  { intros H. destruct stop; [|done]. destruct Hf as (_ & Hf & _). specialize (Hf eq_refl). lia. }
  destruct (at_step_signal k stop Hf) as [[-> He]|[[Hin He]|[(H0 & Hin & H7 & He)|(Hin & H7 & He & Hf')]]].
  - split_and!; [done|intros H; exfalso; revert H; apply (bool_decide_unpack _); by vm_compute|done|lia].
  - assert (k <> 0%nat) by (intros ->; revert Hin; apply (bool_decide_unpack _); by vm_compute).
    split_and!; [done|done|intros; done|intros; done].
  - split_and!; [done|done| |lia]. intros _ _ _. rewrite He. split; [done|]. rewrite (Hstop H7) in *. intros s' Hq.
    destruct (quiet_false k s' Hf Hq) as (k' & -> & _). done.
  - split_and!; [lia|done|lia|]. intros _ _. rewrite He. intros s' Hq.
    destruct (quiet_true k s' Hf' Hq) as [(k' & -> & Hf2)|He2]; [by apply quiet_true_end|]. exists s'. split; [done|done].
Qed.
Print Assumptions C107_signal.

(** Without signals the server serves for ever: it reaches the call of wait and stays there. *)
Theorem C107_serves :
  runs_for_ever true sproc0 /\
  forall s, rtc (sp_quiet true) sproc0 s ->
    exists s', rtc (sp_quiet true) s s' /\ head (p_left s') = Some MWait /\ main_step true s' = None.
Proof.
  assert (Hf : fits 0 false) by (unfold fits; split_and!; intros; try done; lia). split.
  - intros s Hq. destruct (quiet_false 0 s Hf Hq) as (k & -> & _). done.
  - intros s Hq. destruct (quiet_false 0 s Hf Hq) as (k & -> & (_ & _ & Hk)). specialize (Hk eq_refl).
    exists (at_step 8 false). split; [|split; by vm_compute]. clear Hq.
    assert (Hstep : forall j, (j < 8)%nat -> sp_quiet true (at_step j false) (at_step (S j) false)).
    { intros j Hj. do 8 (destruct j as [|j]; [reflexivity|]). lia. }
    remember (8 - k)%nat as n eqn:En. revert k Hk En. induction n as [|n IH]; intros k Hk En.
    + assert (k = 8%nat) as -> by lia. done.
    + eapply rtc_l; [apply Hstep; lia|]. apply IH; lia.
Qed.
Print Assumptions C107_serves.

(** Not every signal that reaches a server whose handlers are installed stops it: one is lost
    if it comes while the server is being set up, one blocks the process for ever if it comes
    while main writes to the log. *)
Theorem C107_refuted :
  (exists s, rtc (sp_step true) sproc0 s /\ p_handlers s = true /\ p_listening s = true /\ p_end s = SRunning /\
     on_signal s = s /\ runs_for_ever true (on_signal s)) /\
  (exists s, rtc (sp_step true) sproc0 s /\ p_handlers s = true /\ p_end s = SRunning /\ p_end (on_signal s) = SStuck /\
     forall s', rtc (sp_step true) (on_signal s) s' -> s' = on_signal s).
Proof.
  assert (Hreach : forall k, (k <= 8)%nat -> rtc (sp_step true) sproc0 (at_step k false)).
  { induction k as [|k IH]; intros Hk; [done|]. eapply rtc_r; [apply IH; lia|]. apply sp_main.
    do 8 (destruct k as [|k]; [reflexivity|]). lia. }
  split.
  - exists (at_step 6 false). assert (Hr : rtc (sp_step true) sproc0 (at_step 6 false)) by (apply Hreach; lia).
    destruct (C107_signal (at_step 6 false) Hr eq_refl) as (_ & _ & H & _).
    destruct H as [H1 H2]; [apply (bool_decide_unpack _); by vm_compute..|]. rewrite H1. split_and!; try done.
  - exists (at_step 2 false). split_and!; [apply Hreach; lia|done..|].
    intros s' H. inversion H as [|? s2 ? Hs]; subst; [done|]. exfalso. inversion Hs as [? ? Em|? He]; subst; [by vm_compute in Em|by vm_compute in He].
Qed.
Print Assumptions C107_refuted.

(** If the port cannot be bound the program uses a null pointer, and does not end with an
    error. *)
Theorem C107_port_refuted :
  forall s, rtc (sp_quiet false) sproc0 s ->
    exists s', rtc (sp_quiet false) s s' /\ p_end s' = SUndef.
Proof.
  set (t k := SProc (drop k main_steps) (bool_decide (1 <= k)%nat) (bool_decide (k ∈ [2; 4; 11]%nat)) (bool_decide (7 <= k)%nat) false false SRunning).
  set (u := SProc (drop 8 main_steps) true false true false false SUndef).
  assert (Hstep : forall j s, (j <= 8)%nat -> main_step false (t j) = Some s -> ((j < 8)%nat /\ s = t (S j)) \/ s = u).
  { intros j s Hj E. do 9 (destruct j as [|j]; [vm_compute in E; simplify_eq; first [by right|left; split; [lia|reflexivity]]|]). lia. }
  assert (Hfw : forall j, (j <= 8)%nat -> rtc (sp_quiet false) (t j) u).
  { intros j Hj. remember (8 - j)%nat as n eqn:En. revert j Hj En. induction n as [|n IH]; intros j Hj En.
    - assert (j = 8%nat) as -> by lia. apply rtc_once. reflexivity.
    - eapply rtc_l; [|apply (IH (S j)); lia]. do 8 (destruct j as [|j]; [reflexivity|]). lia. }
  intros s H. exists u. split; [|done].
  assert (Hinv : (exists j, (j <= 8)%nat /\ s = t j) \/ s = u).
  { revert s H. apply (rtc_ind_r (fun s => (exists j, (j <= 8)%nat /\ s = t j) \/ s = u)).
    - left. exists 0%nat. split; [lia|reflexivity].
    - intros s s' _ Hq [(j & Hj & ->)| ->].
      + destruct (Hstep j s' Hj Hq) as [[Hj' ->]| ->]; [|by right]. left. exists (S j). split; [lia|done].
      + unfold sp_quiet in Hq. by vm_compute in Hq. }
  destruct Hinv as [(j & Hj & ->)| ->]; [by apply Hfw|done].
Qed.
Print Assumptions C107_port_refuted.
