(** Final theorems about load_inverted_index of the builders (C115). *)
From stdpp Require Import prelude gmap.
From Coq Require Import NArith Lia.
From Verif Require Import Base EncModel StoreModel KvModel SchemeModel SchemeSpec PlutoModel PlutoSpec LoadModel Props_Enc Props_Scheme Props_Pluto.
Local Open Scope nat_scope.

(** ** C115: files loaded by the builders. *)
(** The builder after the insertion of some lists, one after the other, when none of them
    fails. *)
Inductive inserted {B} (insert : B -> bytes -> list N -> B * res unit) : B -> list (bytes * list N) -> B -> Prop :=
| inserted_nil b : inserted insert b [] b
| inserted_cons b kw docs b1 file b2 : insert b kw docs = (b1, Ok tt) -> inserted insert b1 file b2 ->
    inserted insert b ((kw, docs) :: file) b2.

(** The result is true exactly when the parser returns and every list was inserted; it is
    false exactly when the parser throws after lists that were all inserted, or an insertion
    throws: then the lists before it were inserted, and none after it. *)
Theorem C115_result :
  forall B (insert : B -> bytes -> list N -> B * res unit) b file e b',
    (load_file insert b file e = (b', Ok true) <-> e = PDone /\ inserted insert b file b') /\
    (load_file insert b file e = (b', Ok false) <->
       (e = PFails /\ inserted insert b file b') \/
       exists pre kw docs post b1 x, file = pre ++ (kw, docs) :: post /\ inserted insert b pre b1 /\ insert b1 kw docs = (b', Throw x)).
Proof.
  intros B insert b file e b'. split.
  - split.
    + revert b. induction file as [|[kw docs] file IH]; intros b H; simpl in H.
      * destruct e; [|done]. injection H as <-. by split; [|constructor].
      * destruct (insert b kw docs) as [b1 r] eqn:E. simpl in H. destruct r as [[]| | |]; try done. destruct (IH _ H) as [-> Hi].
        split; [done|]. by econstructor.
    + intros [-> H]. induction H as [|b kw docs b1 file b2 E _ IH]; [done|]. simpl. rewrite E. exact IH.
  - split.
    + revert b. induction file as [|[kw docs] file IH]; intros b H; simpl in H.
      * destruct e; [done|]. injection H as <-. left. by split; [|constructor].
      * destruct (insert b kw docs) as [b1 r] eqn:E. simpl in H. destruct r as [[]|x| |]; try done.
        -- destruct (IH _ H) as [[-> Hi]|(pre & kw' & docs' & post & b2 & x & -> & Hi & Hx)].
           ++ left. split; [done|]. by econstructor.
           ++ right. exists ((kw, docs) :: pre), kw', docs', post, b2, x. split_and!; [done| |done]. by econstructor.
        -- injection H as <-. right. exists [], kw, docs, file, b, x. split_and!; [done|constructor|done].
    + intros [[-> H]|(pre & kw & docs & post & b1 & x & -> & H & Hx)].
      * induction H as [|b kw docs b1 file b2 E _ IH]; [done|]. simpl. rewrite E. exact IH.
      * induction H as [b|b kw' docs' b2 file b3 E _ IH]; simpl; [by rewrite Hx|]. rewrite E. by apply IH.
Qed.
Print Assumptions C115_result.

Lemma insert_db_load sc b db b' e : insert_db sc b db = (b', replicate (length db) (Ok tt)) ->
  tethys_load sc b db e = (b', Ok (match e with PDone => true | PFails => false end)).
Proof.
  revert b. induction db as [|[kw docs] db IH]; intros b H; simpl in H.
  - injection H as <-. done.
  - injection H as H1 H2 H3. unfold tethys_load in *. simpl. rewrite H2. apply IH.
    destruct (insert_db sc (tethys_insert sc b kw docs).1 db) as [b2 l]. simpl in *. by subst.
Qed.
Lemma pluto_insert_db_load pp b db b' e : pluto_insert_db pp b db = (b', replicate (length db) (Ok tt)) ->
  pluto_load pp b db e = (b', Ok (match e with PDone => true | PFails => false end)).
Proof.
  revert b. induction db as [|[kw docs] db IH]; intros b H; simpl in H.
  - injection H as <-. done.
  - injection H as H1 H2 H3. unfold pluto_load in *. simpl. rewrite H2. apply IH.
    destruct (pluto_insert_db pp (pluto_insert pp b kw docs).1 db) as [b2 l]. simpl in *. by subst.
Qed.

(** Tethys: whatever the end of the parser, the lists that it gave are found after the build;
    the result says whether it reached its end. *)
Theorem C115_tethys :
  forall sc db sb e,
    scheme_ok sc db -> full_lists_last sc db -> new_store_builder (sc_store sc) = Ok sb ->
    exists b f c,
      tethys_load sc (TB sb ∅) db e = (b, Ok (match e with PDone => true | PFails => false end)) /\
      (exists fuel, forall fuel', fuel <= fuel' -> (tethys_build fuel' sc b).2 = Ok f) /\
      open_client sc (tb_counters b) f = Ok c /\
      forall w, exists r, tethys_search sc c (open_server f) w = Ok r /\ r ≡ₚ ids_of w db.
Proof.
  intros sc db sb e Hok Hf Hb. destruct (C17_search sc db sb Hok Hf Hb) as (b & f & c & H1 & H2 & H3 & H4).
  exists b, f, c. split_and!; [by apply insert_db_load|done|done|done].
Qed.
Print Assumptions C115_tethys.
(** Pluto: the same, with the answers of the scheme (see C29). *)
Theorem C115_pluto :
  forall pp rand n_elts db ws b0 e,
    pluto_ok pp rand n_elts db ws -> pluto_new pp = Ok b0 ->
    exists b b' f c s,
      pluto_load pp b0 db e = (b, Ok (match e with PDone => true | PFails => false end)) /\
      (exists fuel, forall fuel', fuel <= fuel' -> pluto_build fuel' pp rand n_elts b = (b', Ok f)) /\
      pluto_open_client pp f = Ok c /\ pluto_open_server pp f = Ok s /\
      forall w, w ∈ ws -> exists r,
        (exists fuel, forall fuel', fuel <= fuel' -> pluto_search fuel' pp c s w = Ok r) /\
        r ≡ₚ answer pp (lost_keys (table_keys pp rand n_elts db) (pb_ht b')) w (ids_of w db).
Proof.
  intros pp rand n_elts db ws b0 e Hok Hb. destruct (C29_search pp rand n_elts db ws b0 Hok Hb) as (b & b' & f & c & s & H1 & H2 & H3 & H4 & H5).
  exists b, b', f, c, s. split_and!; [by apply pluto_insert_db_load|done|done|done|done].
Qed.
Print Assumptions C115_pluto.

(** The searches after two loads in the same builder. *)
Definition search_loads (sc : scheme) (f1 : list (bytes * list N)) (e1 : pend) (f2 : list (bytes * list N)) (w : bytes)
  : res (res bool * res bool * list N) :=
  sb <~ new_store_builder (sc_store sc);
  let r1 := tethys_load sc (TB sb ∅) f1 e1 in
  let r2 := tethys_load sc r1.1 f2 PDone in
  f <~ (tethys_build 100 sc r2.1).2;
  c <~ open_client sc (tb_counters r2.1) f;
  r <~ tethys_search sc c (open_server f) w;
  Ok (r1.2, r2.2, r).
(** A load that failed and is tried again finds documents twice; a file with a keyword twice
    loses documents; a file with a list that fills its blocks loses the lists after it.  In the three
    cases the last load returns true. *)
Theorem C115_refuted :
  (exists sc db w r, scheme_ok sc db /\ full_lists_last sc db /\
     search_loads sc db PFails db w = Ok (Ok false, Ok true, r) /\ ~ r ≡ₚ ids_of w db) /\
  (exists sc w ids ids' id r, scheme_ok sc [(w, ids)] /\ scheme_ok sc [(w, ids')] /\ id ∈ ids /\
     search_loads sc [] PDone [(w, ids); (w, ids')] w = Ok (Ok true, Ok true, r) /\ id ∉ r) /\
  (exists sc db w, scheme_ok sc db /\ ids_of w db <> [] /\ search_loads sc [] PDone db w = Ok (Ok true, Ok true, [])).
Proof.
  assert (H : forall ids, length ids < 30 -> Forall (fun id => (id < 2 ^ 64)%N) ids -> scheme_ok (ex_sc 4) [([1%N], ids)]).
  { intros ids Hl HF. split; try done.
    - vm_compute. lia.
    - cbn. lia.
    - exact ex_ks_length.
    - intros x. apply ex_hash_length.
    - cbn. apply NoDup_singleton.
    - by repeat constructor.
    - repeat constructor. cbn [snd]. change (max_list_size _) with 10. assert (length ids / 10 < 30) by (apply Nat.div_lt_upper_bound; lia).
      change (2 ^ 32)%N with 4294967296%N. lia.
    - unfold uses_of. cbn [mbind list_bind app fst snd]. rewrite app_nil_r. change (max_list_size _) with 10.
      assert (length ids / 10 < 3) by (apply Nat.div_lt_upper_bound; lia).
      destruct (length ids / 10) as [|[|[|n]]]; [..|lia]; derive_ok_tac. }
  split; [|split].
  - exists (ex_sc 4), [([1%N], ex_list 13)], [1%N]. eexists.
    split; [apply H; [cbn; lia|apply (bool_decide_unpack _); by vm_compute]|].
    split. { intros i j x y Hij Hi Hj Hm. destruct i as [|i]; [|done]. destruct j as [|j]; [lia|done]. }
    split; [by vm_compute|]. intros HP. apply Permutation_length in HP. vm_compute in HP. discriminate HP.
  - exists (ex_sc 4), [1%N], (ex_list 23), [7%N], 115%N. eexists.
    split; [apply H; [cbn; lia|apply (bool_decide_unpack _); by vm_compute]|]. split; [apply H; [cbn; lia|by repeat constructor]|].
    split; [apply (bool_decide_unpack _); by vm_compute|]. split; [by vm_compute|]. apply (bool_decide_unpack _); by vm_compute.
  - exists (ex_sc 2), [([1%N], ex_list 10); ([2%N], [7%N; 8%N])], [2%N]. split; [|split; [done|by vm_compute]].
    split; try done.
    + vm_compute. lia.
    + exact ex_ks_length.
    + intros x. apply ex_hash_length.
    + apply (bool_decide_unpack _). by vm_compute.
    + apply (bool_decide_unpack _). by vm_compute.
    + apply (bool_decide_unpack _). by vm_compute.
    + derive_ok_tac.
Qed.
Print Assumptions C115_refuted.

(** The hypotheses hold of these databases: Tethys, and Pluto with both tables. *)
Example C115_tethys_example : exists sb, scheme_ok (ex_sc 4) ex_tdb /\ full_lists_last (ex_sc 4) ex_tdb /\ new_store_builder (sc_store (ex_sc 4)) = Ok sb.
Proof. destruct ex_scheme_ok as [H1 H2]. eexists. split_and!; [exact H1|exact H2|by vm_compute]. Qed.
Example C115_pluto_example :
  pluto_ok (PPar (ex_psc 4) KRocks) ex_rand 40 ex_pdb ex_ws /\ pluto_ok (PPar (ex_psc 4) (KCuckoo 5 6 5)) ex_rand 40 ex_pdb ex_ws /\
  (exists b0, pluto_new (PPar (ex_psc 4) KRocks) = Ok b0) /\ exists b0, pluto_new (PPar (ex_psc 4) (KCuckoo 5 6 5)) = Ok b0.
Proof. split_and!; [exact ex_pluto_rocks|exact ex_pluto_cuckoo|eexists; by vm_compute|eexists; by vm_compute]. Qed.
(** An insertion that throws at its second list: the third one is not inserted. *)
Example C115_result_example :
  let ins (l : list bytes) kw (docs : list N) := if bool_decide (docs = []) then (l, Throw InvalidArgument) else (kw :: l, Ok tt) in
  load_file ins [] [([1%N], [4%N]); ([2%N], []); ([3%N], [5%N])] PDone = ([[1%N]], Ok false) /\
  load_file ins [] [([1%N], [4%N]); ([3%N], [5%N])] PDone = ([[3%N]; [1%N]], Ok true) /\
  load_file ins [] [([1%N], [4%N]); ([3%N], [5%N])] PFails = ([[3%N]; [1%N]], Ok false).
Proof. by vm_compute. Qed.
