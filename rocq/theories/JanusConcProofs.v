(** Requests of Janus processed at the same time: reordering of the accesses. *)
From stdpp Require Import prelude gmap.
From Coq Require Import NArith Lia.
From Verif Require Import Base EncModel KvModel UtilsModel Props_Utils DianaModel DianaSpec DianaProofs Props_Diana
  JanusModel JanusSpec JanusProofs Props_Janus HideJSpec Props_HideJ JanusConcModel JanusConcSpec.

Local Notation jkey := (jdb * bytes)%type.

(** ** The databases *)
Lemma jget_set s x v : jget (jset s x v) x = v.
Proof. destruct x as [[] k]; unfold jget, jset; simpl; apply lookup_partial_alter. Qed.
Lemma jget_set_ne s x y v : x <> y -> jget (jset s x v) y = jget s y.
Proof.
  destruct x as [d k], y as [d' k']. intros H.
  assert (d <> d' \/ k <> k') as [Hd|Hk].
  { destruct (decide (k = k')) as [->|]; [left|by right]. intros ->. done. }
  - destruct d, d'; try done.
  - destruct d, d'; unfold jget, jset; simpl; try done; by rewrite lookup_partial_alter_ne.
Qed.
Lemma jset_comm s x y v w : x <> y -> jset (jset s x v) y w = jset (jset s y w) x v.
Proof.
  destruct x as [d k], y as [d' k']. intros H.
  destruct d, d'; unfold jset; simpl; try done; f_equal; apply partial_alter_commute; intros ->; by apply H.
Qed.

(** ** One request alone *)
Definition ev_key (e : event) : option jkey := match e with EGet x _ | EPut x _ => Some x | ETau => None end.

(** An access to a key that another access does not touch can be made later. *)
Lemma happens_comm s e s1 f s2 : happens s e s1 -> happens s1 f s2 ->
  (forall x, ev_key e = Some x -> ev_key f <> Some x) ->
  exists s1', happens s f s1' /\ happens s1' e s2.
Proof.
  intros He Hf Hne. destruct e as [x v|x v|], f as [y w|y w|]; simpl in *.
  - destruct He as [He ->], Hf as [Hf ->]. exists s. done.
  - destruct He as [He ->]. subst s2. exists (jset s y w). split; [done|]. split; [|done].
    rewrite jget_set_ne; [done|]. specialize (Hne x eq_refl). congruence.
  - destruct He as [He ->]. subst s2. exists s. done.
  - subst s1. destruct Hf as [Hf ->]. exists s. split; [|done]. split; [|done].
    rewrite jget_set_ne in Hf; [done|]. specialize (Hne x eq_refl). congruence.
  - subst s1 s2. exists (jset s y w). split; [done|]. apply jset_comm. specialize (Hne x eq_refl). congruence.
  - subst s1 s2. exists s. done.
  - subst s1. destruct Hf as [Hf ->]. exists s. done.
  - subst s1 s2. exists (jset s y w). done.
  - subst. exists s. done.
Qed.

Section serial.
  Variable S : janus.

  Definition step1 (x y : proc S * j_server) : Prop :=
    exists e, proc_step S x.1 e y.1 /\ happens x.2 e y.2.
  (** The requests one after the other, each until it is answered. *)
  Inductive serial : list (proc S) -> j_server -> list (proc S) -> j_server -> Prop :=
  | se_nil s : serial [] s [] s
  | se_cons p ps s p' s1 ps' s' :
      rtc step1 (p, s) (p', s1) -> answered p' -> serial ps s1 ps' s' ->
      serial (p :: ps) s (p' :: ps') s'.

  (** The keys that a request may still access. *)
  Inductive p_uses : prog -> jkey -> Prop :=
  | pu_get x f : p_uses (Get x f) x
  | pu_get_rest x f v y : p_uses (f v) y -> p_uses (Get x f) y
  | pu_put x v p : p_uses (Put x v p) x
  | pu_put_rest x v p y : p_uses p y -> p_uses (Put x v p) y.
  Definition th_uses (th : d_thread) (x : jkey) : Prop :=
    (exists i ut mask v, dt_removing th = Some (i, ut, mask, v) /\ x = (DelDb, ut)) \/
    (exists i st, (i, st) ∈ dt_rest th /\ x = (DelDb, (d_token_mask (jn_del S) st).1)).
  Definition uses (p : proc S) (x : jkey) : Prop :=
    match p with
    | Run p => p_uses p x
    | Threads req n ths log => (exists th, th ∈ ths /\ th_uses th x) \/ (exists shares, p_uses (p_par_rest S req n shares) x)
    end.

  Lemma thread_uses th e th' calls : thread_step S th e th' calls ->
    (forall x, ev_key e = Some x -> th_uses th x) /\ (forall x, th_uses th' x -> th_uses th x).
  Proof.
    intros H. destruct H as [t i st rest ut mask E|t i st rest ut mask v E|t i ut mask v rest]; split; cbn [ev_key].
    - intros x [= <-]. right. exists i, st. split; [by left|]. by rewrite E.
    - intros x [(i' & ut' & m' & v' & [=] & _)|(i' & st' & Hin & ->)]. right. exists i', st'. split; [by right|done].
    - intros x [= <-]. right. exists i, st. split; [by left|]. by rewrite E.
    - intros x [(i' & ut' & m' & v' & [= <- <- <- <-] & ->)|(i' & st' & Hin & ->)]; right.
      + exists i, st. split; [by left|]. by rewrite E.
      + exists i', st'. split; [by right|done].
    - intros x [= <-]. left. by exists i, ut, mask, v.
    - intros x [(i' & ut' & m' & v' & [=] & _)|(i' & st' & Hin & ->)]. right. exists i', st'. done.
  Qed.
  Lemma step_uses p e p' : proc_step S p e p' ->
    (forall x, ev_key e = Some x -> uses p x) /\ (forall x, uses p' x -> uses p x).
  Proof.
    intros H. destruct H as [x f v|x v p|req n pre th post log e th' calls Ht|req n ths log Hd]; split; cbn [ev_key uses].
    - intros y [= <-]. constructor.
    - intros y Hy. by eapply pu_get_rest.
    - intros y [= <-]. constructor.
    - intros y Hy. by eapply pu_put_rest.
    - intros x Hx. left. exists th. split; [rewrite elem_of_app, elem_of_cons; by right; left|]. by apply (proj1 (thread_uses _ _ _ _ Ht)).
    - intros x [(th1 & Hin & Hu)|Hr]; [left|by right]. rewrite elem_of_app, elem_of_cons in Hin.
      destruct Hin as [Hin|[->|Hin]].
      + exists th1. split; [rewrite elem_of_app; auto|done].
      + exists th. split; [rewrite elem_of_app, elem_of_cons; auto|]. by apply (proj2 (thread_uses _ _ _ _ Ht)).
      + exists th1. split; [rewrite elem_of_app, elem_of_cons; auto|done].
    - done.
    - intros x Hx. right. by eexists.
  Qed.
  Lemma answered_stuck p e p' : answered p -> ~ proc_step S p e p'.
  Proof. intros [r ->] H. inversion H. Qed.

  (** A request that does not use the key of an access [e] can run before [e]. *)
  Lemma run_before x y : rtc step1 x y -> forall s e, happens s e x.2 ->
    (forall k, ev_key e = Some k -> ~ uses x.1 k) ->
    exists s', rtc step1 (x.1, s) (y.1, s') /\ happens s' e y.2.
  Proof.
    induction 1 as [x|x y z (f & Hf & Hs) Hr IH]; intros s e He Hk; [by exists s|].
    destruct (step_uses _ _ _ Hf) as [U1 U2].
    destruct (happens_comm _ _ _ _ _ He Hs) as (s1 & H1 & H2).
    { intros k Ek Ef. by apply (Hk k Ek), U1. }
    destruct (IH s1 e H2) as (s' & Hr' & He').
    { intros k Ek Hu. by apply (Hk k Ek), U2. }
    exists s'. split; [|done]. eapply rtc_l; [|exact Hr']. exists f. done.
  Qed.

  Lemma serial_step ps : forall i s p e p' s1 ps' s',
    ps !! i = Some p -> proc_step S p e p' -> happens s e s1 ->
    (forall j q k, j < i -> ps !! j = Some q -> ev_key e = Some k -> answered q \/ ~ uses q k) ->
    serial (<[i := p']> ps) s1 ps' s' -> serial ps s ps' s'.
  Proof.
    induction ps as [|q ps IH]; intros i s p e p' s1 ps' s' Hi Hp He Hk Hs; [done|].
    destruct i as [|i].
    - injection Hi as ->. cbn [list_insert insert] in Hs. inversion Hs as [|? ? ? q' s2 ps2 ? Hr Ha Hs']; subst.
      econstructor; [|exact Ha|exact Hs']. eapply rtc_l; [|exact Hr]. by exists e.
    - cbn [lookup list_lookup] in Hi. change (<[Datatypes.S i:=p']> (q :: ps)) with (q :: <[i:=p']> ps) in Hs.
      inversion Hs as [|? ? ? q' s2 ps2 ? Hr Ha Hs']; subst.
      assert (exists s2', rtc step1 (q, s) (q', s2') /\ happens s2' e s2) as (s2' & Hr' & He').
      { destruct (ev_key e) as [k|] eqn:Ek.
        - destruct (Hk 0 q k) as [Hq|Hq]; [lia|done|done| |].
          + inversion Hr as [|? y ? Hst _]; subst.
            * exists s. split; [constructor|done].
            * destruct Hst as (f & Hf & _). by apply answered_stuck in Hf.
          + apply (run_before _ _ Hr s e He). intros k' Ek'. rewrite Ek in Ek'. by injection Ek' as <-.
        - apply (run_before _ _ Hr s e He). intros k' Ek'. by rewrite Ek in Ek'. }
      econstructor; [exact Hr'|exact Ha|]. eapply (IH i); [exact Hi|exact Hp|exact He'| |exact Hs'].
      intros j q1 k Hj Hq1 Ek. apply (Hk (Datatypes.S j) q1 k); [lia|done|done].
  Qed.

  Lemma serial_done ps s : Forall answered ps -> serial ps s ps s.
  Proof. induction 1; [constructor|]. econstructor; [constructor|done|done]. Qed.

  (** Executions in which a request only makes a step when the unfinished requests before it
      do not use the keys it uses: the same can be done one request after the other. *)
  Lemma steps_serial (P : list (proc S) -> nat -> Prop) (x y : list (proc S) * j_server) :
    rtc (fun x y => exists i, P x.1 i /\ server_step S i x y) x y ->
    (forall i ps p k, P ps i -> length ps = length x.1 -> (forall j q q0, ps !! j = Some q -> x.1 !! j = Some q0 -> forall k, uses q k -> uses q0 k) ->
       ps !! i = Some p -> uses p k ->
       forall j q, j < i -> ps !! j = Some q -> answered q \/ ~ uses q k) ->
    Forall answered y.1 -> serial x.1 x.2 y.1 y.2.
  Proof.
    intros Hr. induction Hr as [x|x y z (i & HP & Hst) Hr IH]; intros Hc Ha; [by apply serial_done|].
    inversion Hst as [ps s p e p' s' Hi Hp He]; subst. cbn [fst snd] in *.
    destruct (step_uses _ _ _ Hp) as [U1 U2].
    eapply serial_step; [exact Hi|exact Hp|exact He| |apply IH].
    - intros j q k Hj Hq Ek. eapply (Hc i ps p k); [exact HP|done| |exact Hi|by apply U1|exact Hj|exact Hq].
      intros j' q1 q2 E1 E2 k'. rewrite E1 in E2. by injection E2 as ->.
    - intros i1 ps1 p1 k HP1 Hlen Hsub Hi1 Hu1 j q Hj Hq. rewrite insert_length in Hlen.
      eapply (Hc i1 ps1 p1 k HP1 Hlen); [|exact Hi1|exact Hu1|exact Hj|exact Hq].
      intros j' q1 q2 E1 E2 k' Hk'.
      destruct (decide (i = j')) as [<-|Hne].
      + rewrite Hi in E2. injection E2 as <-. apply U2. eapply (Hsub i q1 p'); [exact E1| |exact Hk'].
        apply list_lookup_insert. by eapply lookup_lt_Some.
      + eapply (Hsub j' q1 q2); [exact E1| |exact Hk']. by rewrite list_lookup_insert_ne.
    - done.
  Qed.
End serial.

(** ** A thread alone *)
Fixpoint run (p : prog) (s : j_server) : res (list N) * j_server :=
  match p with
  | Ret r => (r, s)
  | Get x f => run (f (jget s x)) s
  | Put x v p' => run p' (jset s x v)
  end.
Definition db_of (s : j_server) (d : jdb) : gmap bytes bytes :=
  match d with InsDb => js_ins s | DelDb => js_del s | CacheDb => js_cache s end.
Definition with_db (s : j_server) (d : jdb) (m : gmap bytes bytes) : j_server :=
  match d with
  | InsDb => JServer m (js_del s) (js_cache s)
  | DelDb => JServer (js_ins s) m (js_cache s)
  | CacheDb => JServer (js_ins s) (js_del s) m
  end.
Lemma with_db_same s d : with_db s d (db_of s d) = s.
Proof. by destruct s, d. Qed.

Section alone.
  Variable S : janus.

  Lemma run_alone x y : rtc (step1 S) x y -> forall p, x.1 = Run p -> answered y.1 ->
    y = (Run (Ret (run p x.2).1), (run p x.2).2).
  Proof.
    induction 1 as [x|x y z (e & He & Hs) Hr IH]; intros p Ep Ha.
    - destruct Ha as [r Hr]. rewrite Hr in Ep. injection Ep as <-. cbn [run fst snd]. destruct x; simpl in *. by subst.
    - destruct x as [q s], y as [q' s']; cbn [fst snd] in *. subst q.
      inversion He; subst; cbn [run happens] in *.
      + destruct Hs as [<- ->]. by apply IH.
      + subst s'. by apply IH.
  Qed.
  Lemma run_exists p : forall s, rtc (step1 S) (Run p, s) (Run (Ret (run p s).1), (run p s).2).
  Proof.
    induction p as [r|x f IH|x v p IH]; intros s; cbn [run]; [constructor| |].
    - eapply rtc_l; [|apply IH]. exists (EGet x (jget s x)). split; [constructor|done].
    - eapply rtc_l; [|apply IH]. exists (EPut x v). split; [constructor|done].
  Qed.

  Lemma run_leaves D d del k leaves : forall results s,
    let r := d_search_loop D (db_of s d) leaves del in
    run (p_leaves D d del leaves results k) s = run (k (results ++ r.2)) (with_db s d r.1).
  Proof.
    induction leaves as [|[i st] leaves IH]; intros results s.
    - cbn [d_search_loop p_leaves fst snd]. by rewrite app_nil_r, with_db_same.
    - cbn [d_search_loop p_leaves]. unfold d_get_unmask, d_retrieve_entry.
      destruct (d_token_mask D st) as [ut mask]. cbn [run].
      assert (jget s (d, ut) = db_of s d !! ut) as -> by by destruct d.
      destruct (db_of s d !! ut) as [v|] eqn:Ev.
      + cbn [fmap option_fmap option_map]. destruct del.
        * cbn [run].
          assert (jset s (d, ut) None = with_db s d (delete ut (db_of s d))) as -> by by destruct d.
          specialize (IH (results ++ [diana_xor_mask v mask]) (with_db s d (delete ut (db_of s d)))). cbn zeta in IH.
          assert (db_of (with_db s d (delete ut (db_of s d))) d = delete ut (db_of s d)) as E by by destruct d.
          rewrite E in IH. rewrite IH. destruct (d_search_loop D (delete ut (db_of s d)) leaves true) as [db' rs].
          cbn [fst snd]. rewrite <- app_assoc. by destruct d.
        * rewrite IH. cbn zeta. destruct (d_search_loop D (db_of s d) leaves false) as [db' rs].
          cbn [fst snd]. by rewrite <- app_assoc.
      + cbn [fmap option_fmap option_map]. rewrite IH. cbn zeta.
        destruct (d_search_loop D (db_of s d) leaves del) as [db' rs]. done.
  Qed.
  Lemma run_diana D d (req : d_search D) del k s db' rs :
    d_server_search D (db_of s d) req del = Ok (db', rs) ->
    run (p_diana D d req del k) s = run (k rs) (with_db s d db').
  Proof.
    unfold d_server_search, p_diana. destruct (ds_count req =? 0)%N.
    { intros [= <- <-]. by rewrite with_db_same. }
    destruct (ds_con req) as [con|]; [|done].
    destruct (d_eval_range D con 0 (d_max_leaf D con)) as [leaves| | |]; cbn [rbind]; try done.
    intros [= E]. rewrite run_leaves. cbn zeta. by rewrite E.
  Qed.
  Lemma push_all (l : list bytes) acc : foldl (fun results i => results ++ [i]) acc l = acc ++ l.
  Proof. revert acc. induction l as [|x l IH]; intros acc; [by rewrite app_nil_r|]. cbn [foldl]. by rewrite IH, <- app_assoc. Qed.
  Lemma search_list_plain D db (req : d_search D) del :
    d_server_search_list D db req del = d_server_search D db req del.
  Proof.
    unfold d_server_search_list. destruct (d_server_search D db req del) as [[m l]| | |]; try done.
    cbn [rbind fst snd]. by rewrite push_all.
  Qed.
  Lemma run_cache token k s l : list_get (jn_tagsize S) (js_cache s) token = Ok l -> run (p_cache S token k) s = run (k l) s.
  Proof.
    intros E. unfold p_cache. cbn [run]. unfold list_get in E. unfold cached_list, jget. cbn [fst snd].
    destruct (js_cache s !! token) as [raw|]; [|by injection E as <-]. by rewrite E.
  Qed.
  Lemma run_store token l p s : run (p_store token l p) s = run p (JServer (js_ins s) (js_del s) (list_put (js_cache s) token l)).
  Proof. done. Qed.

  Lemma run_search s req s' a : j_server_search S s req = Ok (s', a) -> run (p_search S req) s = (Ok a, s').
  Proof.
    unfold j_server_search. rewrite !search_list_plain. intros H. unfold p_search.
    destruct (d_server_search _ (js_ins s) _ true) as [[mi li]| | |] eqn:Ei; try done. cbn [rbind] in H.
    destruct (d_server_search _ (js_del s) _ true) as [[md ld]| | |] eqn:Ed; try done. cbn [rbind fst snd] in H.
    destruct (list_get _ (js_cache s) _) as [l| | |] eqn:El; try done. cbn [rbind] in H. injection H as <- <-.
    rewrite (run_diana _ InsDb _ _ _ s mi li Ei). rewrite (run_diana _ DelDb _ _ _ _ md ld); [|exact Ed].
    rewrite (run_cache _ _ _ l) by exact El. rewrite run_store. done.
  Qed.
  Lemma run_par_rest s req n f s1 calls : j_par_finish S s req n f = Ok (s1, calls) ->
    run (p_par_rest S req n (d_result_list n (dp_log f))) (JServer (js_ins s) (dp_db f) (js_cache s)) = (Ok (j_par_list n calls), s1).
  Proof.
    unfold j_par_finish. intros H. unfold p_par_rest.
    destruct (list_get _ (js_cache s) _) as [l| | |] eqn:El; try done. cbn [rbind] in H.
    destruct (d_server_search _ (js_ins s) _ false) as [[mi li]| | |] eqn:Ei; try done. cbn [rbind fst snd] in H.
    injection H as <- <-.
    rewrite (run_cache _ _ _ l) by exact El. rewrite (run_diana _ InsDb _ _ _ _ mi li); [|exact Ei].
    rewrite run_store. done.
  Qed.

  (** The threads of a parallel search, alone. *)
  Lemma threads_alone x y : rtc (step1 S) x y -> forall req n ths log, x.1 = Threads req n ths log -> answered y.1 ->
    exists f, rtc (d_step (jn_del S) true) (DPar (js_del x.2) ths log) f /\ d_finished f /\
      rtc (step1 S) (Run (p_par_rest S req n (d_result_list n (dp_log f))),
                     JServer (js_ins x.2) (dp_db f) (js_cache x.2)) y.
  Proof.
    induction 1 as [x|x y z (e & He & Hs) Hr IH]; intros req n ths log Ep Ha.
    { destruct Ha as [r Hr]. rewrite Hr in Ep. done. }
    destruct x as [q s], y as [q' s']; cbn [fst snd] in *. subst q.
    inversion He as [| |? ? pre th post ? ? th' calls Ht|? ? ? ? Hd]; subst.
    - destruct (IH req n (pre ++ th' :: post) (log ++ calls) eq_refl Ha) as (f & Hf & Hfin & Hend).
      assert (d_step (jn_del S) true (DPar (js_del s) (pre ++ th :: post) log)
                (DPar (js_del s') (pre ++ th' :: post) (log ++ calls)) /\ js_ins s' = js_ins s /\ js_cache s' = js_cache s) as (Hst & E1 & E2).
      { destruct Ht as [t i st rest ut mask E|t i st rest ut mask v E|t i ut mask v rest]; cbn [happens] in Hs.
        - destruct Hs as [Hs ->]. split; [|done]. rewrite app_nil_r. by eapply dst_miss.
        - destruct Hs as [Hs ->]. split; [|done]. rewrite app_nil_r. by eapply dst_hit_del.
        - subst s'. split; [|done]. apply dst_remove. }
      exists f. split; [|split; [done|]].
      + eapply rtc_l; [exact Hst|exact Hf].
      + by rewrite <- E1, <- E2.
    - cbn [happens] in Hs. subst s'. exists (DPar (js_del s) ths log). split; [constructor|]. split; [done|].
      cbn [dp_log dp_db]. by destruct s.
  Qed.
End alone.

(** ** The keys that the requests use *)
Lemma request_of_counter (D : diana) (c : counters) m n : d_crypto_ok D -> (N.of_nat n < 2 ^ 32)%N -> c !! m = ctr_val n ->
  well_formed (d_search_request D c m) /\
  request_tokens (d_search_request D c m) = d_update_token D m <$> seq 0 n.
Proof.
  intros Hd Hn E. unfold d_search_request, ctr_get. rewrite E. destruct n as [|n]; [split; [by left|done]|].
  cbn [ctr_val]. rewrite N.mod_small by lia. split.
  - right. eexists. split; [done|]. cbn [ds_count]. by rewrite (dc_max _ Hd).
  - unfold request_tokens. cbn [ds_con ds_count]. replace (N.to_nat (N.of_nat n + 1)) with (Datatypes.S n) by lia.
    apply list_fmap_ext. intros j i Hi. apply lookup_seq in Hi as [-> Hi]. unfold leaf_token.
    rewrite (dc_eval _ Hd) by lia. done.
Qed.

Lemma leaves_uses D d del k leaves x : forall results, p_uses (p_leaves D d del leaves results k) x ->
  (exists i st, (i, st) ∈ leaves /\ x = (d, (d_token_mask D st).1)) \/ exists results', p_uses (k results') x.
Proof.
  induction leaves as [|[i st] leaves IH]; intros results H; cbn [p_leaves] in H; [right; by eexists|].
  destruct (d_token_mask D st) as [ut mask] eqn:E.
  assert (forall results, p_uses (p_leaves D d del leaves results k) x ->
    (exists i0 st0, (i0, st0) ∈ (i, st) :: leaves /\ x = (d, (d_token_mask D st0).1)) \/ (exists results', p_uses (k results') x)) as G.
  { intros rs Hrs. destruct (IH rs Hrs) as [(i0 & st0 & Hin & ->)|Hr]; [left|by right]. exists i0, st0. split; [by right|done]. }
  inversion H as [|? ? v ? Hv| |]; subst.
  - left. exists i, st. split; [by left|]. by rewrite E.
  - destruct v as [v|]; [|by eapply G]. destruct del; [|by eapply G].
    inversion Hv; subst; [|by eapply G]. left. exists i, st. split; [by left|]. by rewrite E.
Qed.
Lemma diana_uses D d (req : d_search D) del k x : well_formed req -> p_uses (p_diana D d req del k) x ->
  (x.1 = d /\ x.2 ∈ request_tokens req) \/ exists results', p_uses (k results') x.
Proof.
  intros Hw H. unfold p_diana in H. destruct (ds_count req =? 0)%N eqn:Ez; [right; by eexists|].
  destruct Hw as [Hw|(con & Ec & Hn)]; [by rewrite Hw in Ez|]. rewrite Ec in H.
  unfold d_eval_range in H. destruct (_ || _); [by inversion H|].
  apply leaves_uses in H as [(i & st & Hin & ->)|H]; [left|by right]. split; [done|].
  apply elem_of_list_fmap in Hin as (j & Ej & Hj). injection Ej as -> ->. apply elem_of_seq in Hj.
  unfold request_tokens. rewrite Ec. apply elem_of_list_fmap. exists j. split; [done|].
  apply elem_of_seq. lia.
Qed.
Lemma cache_uses S token k x : p_uses (p_cache S token k) x -> x = (CacheDb, token) \/ exists l, p_uses (k l) x.
Proof.
  intros H. inversion H as [|? ? v ? Hv| |]; subst; [by left|]. destruct (cached_list _ v); try by inversion Hv. right. by eexists.
Qed.
Lemma store_uses token l p x : p_uses (p_store token l p) x -> x = (CacheDb, token) \/ p_uses p x.
Proof. intros H. inversion H; subst; auto. Qed.

Definition req_uses {S} (req : j_search S) (x : jkey) : Prop :=
  (x.1 = InsDb /\ x.2 ∈ request_tokens (jr_ins req)) \/ (x.1 = DelDb /\ x.2 ∈ request_tokens (jr_del req)) \/
  x = (CacheDb, jr_token req).
Lemma search_uses S (req : j_search S) x : well_formed (jr_ins req) -> well_formed (jr_del req) ->
  p_uses (p_search S req) x -> req_uses req x.
Proof.
  intros Wi Wd H. unfold p_search in H. apply diana_uses in H as [H|[ri H]]; [by left| |done].
  apply diana_uses in H as [H|[rd H]]; [by right; left| |done].
  apply cache_uses in H as [H|[l H]]; [by right; right|]. cbn zeta in H.
  apply store_uses in H as [H|H]; [by right; right|]. inversion H.
Qed.
Lemma par_rest_uses S (req : j_search S) n shares x : well_formed (jr_ins req) ->
  p_uses (p_par_rest S req n shares) x -> req_uses req x.
Proof.
  intros Wi H. unfold p_par_rest in H. apply cache_uses in H as [H|[l H]]; [by right; right|]. cbn zeta in H.
  apply diana_uses in H as [H|[ri H]]; [by left| |done]. cbn zeta in H.
  apply store_uses in H as [H|H]; [by right; right|]. inversion H.
Qed.
Lemma par_uses S (req : j_search S) n x : well_formed (jr_ins req) -> well_formed (jr_del req) -> (0 < n < 256)%N ->
  NoDup (request_tokens (jr_del req)) ->
  uses S (p_par S req n) x -> req_uses req x.
Proof.
  intros Wi Wd Hn Nd H. unfold p_par in H.
  destruct (C38_search_parallel (jn_del S) ∅ (jr_del req) n true Wd Hn ltac:(done)) as (f & Ef & Hl & _).
  rewrite Ef in H. cbn [uses] in H. destruct H as [(th & Hin & Hu)|[shares H]]; [|by eapply par_rest_uses].
  right. left.
  assert (dt_removing th = None /\ exists con, ds_con (jr_del req) = Some con) as [Hr [con Hc]].
  { unfold d_search_parallel in Ef. destruct (ds_count (jr_del req) =? 0)%N; [injection Ef as <-; by apply elem_of_nil in Hin|].
    destruct (_ =? 0)%N; [done|]. destruct (ds_con (jr_del req)) as [con|] eqn:Ec; [|done]. split; [|by exists con].
    destruct (d_jobs _ con _) as [ths| | |] eqn:Ej; try done. cbn [rbind] in Ef. injection Ef as <-. cbn [dp_threads] in Hin.
    clear Hl. revert ths Ej Hin. generalize (d_ranges (N.to_nat (N.min n (ds_count (jr_del req)))) 0 (ds_count (jr_del req) / N.min n (ds_count (jr_del req)))
      (ds_count (jr_del req) mod N.min n (ds_count (jr_del req))) 0 (ds_count (jr_del req) / N.min n (ds_count (jr_del req))) (ds_count (jr_del req))) as rs.
    clear. induction rs as [|[[t mn] mx] rs IH]; intros ths Ej Hin; cbn [d_jobs] in Ej.
    { injection Ej as <-. by apply elem_of_nil in Hin. }
    destruct (d_eval_range _ con mn mx) as [lv| | |]; try done. cbn [rbind] in Ej.
    destruct (d_jobs _ con rs) as [ths'| | |] eqn:Ej'; try done. cbn [rbind] in Ej. injection Ej as <-.
    apply elem_of_cons in Hin as [->|Hin]; [done|]. by eapply IH. }
  destruct Hu as [(i & ut & mask & v & E & _)|(i & st & Hst & ->)]; [by rewrite Hr in E|]. split; [done|].
  specialize (Hl con Hc).
  assert ((i, st) ∈ dp_threads f ≫= dt_rest) as Hx by (apply elem_of_list_bind; by exists th).
  rewrite Hl in Hx. apply elem_of_list_fmap in Hx as (j & Ej & Hj). injection Ej as -> ->.
  unfold request_tokens. rewrite Hc. apply elem_of_list_fmap. by exists j.
Qed.

(** The keys of a request, from the history. *)
Definition count_of (d : jdb) (h : j_hist) (kw : bytes) (e : N) : nat :=
  match d with InsDb => jh_ins h kw e | DelDb => length (jh_rem h kw e) | CacheDb => 0 end.
Definition token_of (S : janus) (d : jdb) (kw : bytes) (e : N) (i : nat) : bytes :=
  d_update_token (match d with InsDb => jn_ins S | _ => jn_del S end) (meta_keyword kw e) i.
Definition fp (S : janus) (h : j_hist) (o : j_op) (x : jkey) : Prop :=
  let kw := op_kw o in let e := jh_epoch h kw in
  (x = (CacheDb, jn_kwtok S kw) /\ is_find o) \/
  exists d i, d <> CacheDb /\ x = (d, token_of S d kw e i) /\ i < count_of d (j_hist_step h o) kw e /\
    (i < count_of d h kw e <-> is_find o).

Section keys.
  Variable S : janus.
  Hypothesis Hk : j_crypto_ok S.

  (** No collision between the tokens of the current epochs. *)
  Definition cols (h : j_hist) : Prop := forall d kw e i kw' e' i', d <> CacheDb ->
    i < count_of d h kw e -> i' < count_of d h kw' e' -> token_of S d kw e i = token_of S d kw' e' i' ->
    kw = kw' /\ e = e' /\ i = i'.

  Lemma find_uses k h c ci cd kw : (N.of_nat (Datatypes.S k) < 2 ^ 32)%N -> cols h -> jd_inv k h c ci cd ->
    let req := (j_search_request S c kw).2 in
    well_formed (jr_ins req) /\ well_formed (jr_del req) /\ NoDup (request_tokens (jr_del req)) /\
    forall x, req_uses req x -> (forall o, is_find o -> op_kw o = kw -> fp S h o x).
  Proof.
    intros Hb Hc [Hs He Hi Hd] req. set (e := jh_epoch h kw).
    assert ((e < 2 ^ 32)%N) as Heb by (destruct Hs as [Hs _]; specialize (Hs kw); unfold e; lia).
    destruct (Hi kw e ltac:(unfold e in *; lia)) as [E1 _]. destruct (Hd kw e ltac:(unfold e in *; lia)) as [E2 _].
    destruct Hs as (_ & Hs1 & Hs2). specialize (Hs1 kw e). specialize (Hs2 kw e).
    destruct (request_of_counter (jn_ins S) (jc_ins c) (meta_keyword kw e) (jh_ins h kw e)) as [Wi Ti]; [apply Hk|lia|done|].
    destruct (request_of_counter (jn_del S) (jc_del c) (meta_keyword kw e) (length (jh_rem h kw e))) as [Wd Td]; [apply Hk|lia|done|].
    assert (jr_ins req = d_search_request (jn_ins S) (jc_ins c) (meta_keyword kw e)) as Ei.
    { unfold req, j_search_request. cbn [snd jr_ins]. by rewrite He. }
    assert (jr_del req = d_search_request (jn_del S) (jc_del c) (meta_keyword kw e)) as Ed.
    { unfold req, j_search_request. cbn [snd jr_del]. by rewrite He. }
    split; [by rewrite Ei|]. split; [by rewrite Ed|]. split.
    { rewrite Ed, Td. apply NoDup_fmap_2_strong; [|apply NoDup_seq].
      intros i j Hii Hjj E. apply elem_of_seq in Hii, Hjj.
      destruct (Hc DelDb kw e i kw e j) as (_ & _ & ?); [done|cbn; lia|cbn; lia|exact E|done]. }
    intros x [[Ex Hx]|[[Ex Hx]|Hx]] o Ho Eo; unfold fp; rewrite Eo; fold e.
    - right. exists InsDb. rewrite Ei, Ti in Hx. apply elem_of_list_fmap in Hx as (i & Ex2 & Hii). apply elem_of_seq in Hii.
      exists i. split; [done|]. split; [destruct x; simpl in *; by subst|]. cbn [count_of].
      split; [|split; [done|lia]]. pose proof (hle_step h o) as (_ & H1 & _). specialize (H1 kw e). lia.
    - right. exists DelDb. rewrite Ed, Td in Hx. apply elem_of_list_fmap in Hx as (i & Ex2 & Hii). apply elem_of_seq in Hii.
      exists i. split; [done|]. split; [destruct x; simpl in *; by subst|]. cbn [count_of].
      split; [|split; [done|lia]]. pose proof (hle_step h o) as (_ & _ & H1). specialize (H1 kw e). lia.
    - left. split; [|done]. rewrite Hx. done.
  Qed.

  Lemma cols_mono h h' : hle h h' -> cols h' -> cols h.
  Proof.
    intros (_ & H1 & H2) Hc d kw e i kw' e' i' Hd Hi Hi'. apply Hc; [done| |].
    - destruct d; cbn [count_of] in *; [specialize (H1 kw e); lia|specialize (H2 kw e); lia|lia].
    - destruct d; cbn [count_of] in *; [specialize (H1 kw' e'); lia|specialize (H2 kw' e'); lia|lia].
  Qed.

  Lemma requests_uses ops : forall k h c ci cd, (N.of_nat (k + length ops) < 2 ^ 32)%N ->
    cols (foldl j_hist_step h ops) -> (forall kw n, JFindPar kw n ∈ ops -> (0 < n < 256)%N) -> jd_inv k h c ci cd ->
    length (requests S c ops) = length ops /\
    forall i p x, requests S c ops !! i = Some p -> uses S p x ->
      exists o, ops !! i = Some o /\ fp S (foldl j_hist_step h (take i ops)) o x.
  Proof.
    induction ops as [|o ops IH]; intros k h c ci cd Hb Hc Hn I; [done|]. cbn [length foldl] in Hb, Hc.
    assert (hle h (foldl j_hist_step (j_hist_step h o) ops)) as Hle by (eapply hle_trans; [apply hle_step|apply hle_steps]).
    assert (forall kw n, JFindPar kw n ∈ ops -> (0 < n < 256)%N) as Hn' by (intros kw n Hin; apply (Hn kw); by right).
    assert (forall c' ci' cd' q, jd_inv (Datatypes.S k) (j_hist_step h o) c' ci' cd' ->
      (forall x, uses S q x -> fp S h o x) ->
      length (q :: requests S c' ops) = length (o :: ops) /\
      forall i p x, (q :: requests S c' ops) !! i = Some p -> uses S p x ->
        exists o', (o :: ops) !! i = Some o' /\ fp S (foldl j_hist_step h (take i (o :: ops))) o' x) as G.
    { intros c' ci' cd' q I' Hq. destruct (IH (Datatypes.S k) _ c' ci' cd' ltac:(lia) Hc Hn' I') as [L U].
      split; [cbn [length]; by rewrite L|]. intros [|i] p x Hp Hu.
      - injection Hp as <-. exists o. split; [done|]. by apply Hq.
      - destruct (U i p x Hp Hu) as (o' & Ho' & Hf). by exists o'. }
    destruct o as [kw i|kw i|kw|kw n|kw]; cbn [requests].
    - destruct (jd_ins_step k h c ci cd kw i ltac:(lia) I) as [E I'].
      unfold j_insertion_request, d_insertion_request, ctr_get_and_increment.
      rewrite (jd_epoch _ _ _ _ _ I). fold (epoch_kw h kw). cbn [fst snd]. rewrite E.
      eapply G; [exact I'|]. cbn [uses]. intros x Hx. inversion Hx as [| | |? ? ? ? Hx']; subst; [|by inversion Hx'].
      right. exists InsDb, (jh_ins h kw (jh_epoch h kw)). split; [done|].
      destruct I as [Hs He Hi Hd]. assert ((jh_epoch h kw < 2 ^ 32)%N) as Heb by (destruct Hs as [Hs _]; specialize (Hs kw); lia).
      destruct (Hi kw (jh_epoch h kw) ltac:(lia)) as [_ E2].
      destruct Hs as (_ & Hs & _). specialize (Hs kw (jh_epoch h kw)).
      split; [|split].
      + unfold epoch_kw. rewrite E2. unfold d_make_update, d_token_mask. cbn [du_token op_kw]. unfold token_of, d_update_token, d_keyword_index. do 3 f_equal.
        destruct (jh_ins h kw (jh_epoch h kw)) as [|m]; [done|]. cbn [ctr_val next_value]. unfold incr32. rewrite N.mod_small by lia. lia.
      + cbn [op_kw count_of j_hist_step jh_ins]. rewrite decide_True by done. lia.
      + cbn [op_kw count_of is_find]. lia.
    - destruct (jd_del_step k h c ci cd kw i ltac:(lia) I) as (E & Em & _ & I').
      unfold j_removal_request, d_insertion_request, ctr_get_and_increment.
      rewrite (jd_epoch _ _ _ _ _ I). fold (epoch_kw h kw). cbn [fst snd]. rewrite E.
      eapply G; [exact I'|]. cbn [uses]. intros x Hx. inversion Hx as [| | |? ? ? ? Hx']; subst; [|by inversion Hx'].
      right. exists DelDb, (length (jh_rem h kw (jh_epoch h kw))). split; [done|].
      destruct I as [Hs He Hi Hd]. assert ((jh_epoch h kw < 2 ^ 32)%N) as Heb by (destruct Hs as [Hs _]; specialize (Hs kw); lia).
      destruct (Hd kw (jh_epoch h kw) ltac:(lia)) as [_ E2].
      destruct Hs as (_ & _ & Hs). specialize (Hs kw (jh_epoch h kw)).
      split; [|split].
      + unfold epoch_kw. rewrite E2. unfold d_make_update, d_token_mask. cbn [du_token op_kw]. unfold token_of, d_update_token, d_keyword_index. do 3 f_equal.
        destruct (length (jh_rem h kw (jh_epoch h kw))) as [|m]; [done|]. cbn [ctr_val next_value]. unfold incr32. rewrite N.mod_small by lia. lia.
      + cbn [op_kw count_of j_hist_step jh_rem]. rewrite decide_True by done. rewrite app_length. cbn [length]. lia.
      + cbn [op_kw count_of is_find]. lia.
    - destruct (jd_find_step S k h c ci cd kw ltac:(lia) I) as (_ & _ & _ & I').
      destruct (find_uses k h c ci cd kw ltac:(lia) ltac:(by eapply cols_mono) I) as (Wi & Wd & Nd & Hu).
      eapply G; [exact I'|]. intros x Hx. apply (Hu x); [|done|done]. by apply search_uses.
    - destruct (jd_find_step S k h c ci cd kw ltac:(lia) I) as (_ & _ & _ & I').
      destruct (find_uses k h c ci cd kw ltac:(lia) ltac:(by eapply cols_mono) I) as (Wi & Wd & Nd & Hu).
      eapply G; [exact I'|]. intros x Hx. apply (Hu x); [|done|done]. eapply par_uses; [done|done| |done|exact Hx].
      apply (Hn kw). by left.
    - destruct (jd_find_step S k h c ci cd kw ltac:(lia) I) as (_ & _ & _ & I').
      eapply G; [exact I'|]. cbn [uses]. intros x Hx. inversion Hx.
  Qed.

  (** Two requests that may access the same key. *)
  Lemma fp_clash ops i j oi oj x : cols (foldl j_hist_step j_hist0 ops) ->
    (forall kw kw', kw ∈ op_kw <$> ops -> kw' ∈ op_kw <$> ops -> jn_kwtok S kw = jn_kwtok S kw' -> kw = kw') ->
    j < i -> ops !! i = Some oi -> ops !! j = Some oj ->
    fp S (foldl j_hist_step j_hist0 (take i ops)) oi x -> fp S (foldl j_hist_step j_hist0 (take j ops)) oj x ->
    is_find oi /\ op_kw oj = op_kw oi.
  Proof.
    intros Hc Hx Hji Hi Hj Fi Fj.
    assert (forall n o, ops !! n = Some o -> op_kw o ∈ op_kw <$> ops) as Hin.
    { intros n o Ho. apply elem_of_list_fmap. exists o. split; [done|]. by eapply elem_of_list_lookup_2. }
    set (hi := foldl j_hist_step j_hist0 (take i ops)) in *. set (hj := foldl j_hist_step j_hist0 (take j ops)) in *.
    assert (forall n o, ops !! n = Some o ->
      hle (j_hist_step (foldl j_hist_step j_hist0 (take n ops)) o) (foldl j_hist_step j_hist0 ops)) as Hle.
    { intros n o Ho. rewrite <- (take_drop_middle ops n o Ho) at 2. rewrite foldl_app. cbn [foldl]. apply hle_steps. }
    assert (hle (j_hist_step hj oj) hi) as Hlji.
    { unfold hi, hj. assert (take i ops !! j = Some oj) as Hj' by by rewrite lookup_take.
      rewrite <- (take_drop_middle (take i ops) j oj Hj'). rewrite take_take, Nat.min_l by lia.
      rewrite foldl_app. cbn [foldl]. apply hle_steps. }
    destruct Fi as [[-> Fi]|(d & n & Hd & -> & Bi & Ki)].
    - destruct Fj as [[E _]|(d & n & Hd & E & _)]; [|injection E as <- _; done].
      injection E as E. split; [done|]. symmetry. apply Hx; [by eapply Hin|by eapply Hin|done].
    - destruct Fj as [[E _]|(d' & n' & Hd' & E & Bj & Kj)]; [by injection E as -> _|].
      injection E as <- Et. pose proof (Hle i oi Hi) as Hli. pose proof (Hle j oj Hj) as Hlj. fold hi in Hli. fold hj in Hlj.
      assert (forall h h' kw e, hle h h' -> count_of d h kw e <= count_of d h' kw e) as Hmono.
      { intros h h' kw e (_ & H1 & H2). destruct d; cbn [count_of]; auto. }
      destruct (Hc d (op_kw oi) (jh_epoch hi (op_kw oi)) n (op_kw oj) (jh_epoch hj (op_kw oj)) n' Hd) as (E1 & E2 & E3).
      + eapply Nat.lt_le_trans; [exact Bi|by apply Hmono].
      + eapply Nat.lt_le_trans; [exact Bj|by apply Hmono].
      + exact Et.
      + subst n'. split; [|done]. apply Ki. rewrite E2, E1.
        eapply Nat.lt_le_trans; [exact Bj|]. by apply Hmono.
  Qed.
End keys.

(** ** One request after the other: the executions of JanusSpec *)
Section history.
  Variable S : janus.
  Hypothesis Hk : j_crypto_ok S.
  Variable KW : bytes -> Prop.
  Variable DOC : bytes -> N -> Prop.
  Hypothesis Htag : forall kw i i', DOC kw i -> DOC kw i' -> j_tag S kw i = j_tag S kw i' -> i = i'.
  Hypothesis Hkw : forall kw kw', KW kw -> KW kw' -> jn_kwtok S kw = jn_kwtok S kw' -> kw = kw'.

  Lemma one_run p s p' s' ps s1 ps' : serial S (Run p :: ps) s (p' :: ps') s' -> run p s = s1 ->
    p' = Run (Ret s1.1) /\ serial S ps s1.2 ps' s'.
  Proof.
    intros Hs <-. inversion Hs as [|? ? ? ? s2 ? ? Hr Ha Hs']; subst.
    pose proof (run_alone S _ _ Hr p eq_refl Ha) as E. cbn [snd] in E. injection E as -> ->. done.
  Qed.

  Lemma serial_run ops : forall a h c s ch cur gi gd ci cd ps s',
    few_h (foldl j_hist_step h ops) -> col_h S (foldl j_hist_step h ops) -> j_ok1 h ops ->
    Forall (fun o => KW (op_kw o) /\ forall i, i ∈ op_docs (op_kw o) o -> DOC (op_kw o) i) ops ->
    j_inv S KW DOC a h c s ch cur gi gd ci cd ->
    serial S (requests S c ops) s ps s' ->
    exists ans c', j_run S c s ops ans c' s' /\ found ops ps = (fun r => Some (Ok r)) <$> ans.
  Proof.
    induction ops as [|o ops IH]; intros a h c s ch cur gi gd ci cd ps s' Hfew Hcol Hok Hin I Hser.
    { inversion Hser; subst. exists [], c. split; [constructor|done]. }
    cbn [foldl] in Hfew, Hcol. destruct Hok as [Ho Hok]. apply Forall_cons in Hin as [[HK HD] Hin].
    assert (Hle := hle_steps ops (j_hist_step h o)).
    assert (Hfew1 := few_h_mono _ _ Hle Hfew). assert (Hcol1 := col_h_mono _ _ _ Hle Hcol).
    assert (Hle0 := hle_step h o).
    destruct ps as [|p ps]; [by destruct o; inversion Hser|].
    destruct o as [kw i|kw i|kw|kw n|kw]; cbn [op_kw op_docs] in HK, HD; cbn [requests] in Hser.
    - destruct (j_inv_insert S Hk KW DOC a h c s ch cur gi gd ci cd kw i) as (cur' & gi' & ci' & I'); [done|done|done| |done|].
      { apply HD. rewrite decide_True by done. by apply elem_of_list_singleton. }
      eapply one_run in Hser as [-> Hser]; [|reflexivity].
      destruct (IH _ _ _ _ _ _ _ _ _ _ _ _ Hfew Hcol Hok Hin I' Hser) as (ans & c' & H1 & H2).
      exists ans, c'. split; [by constructor|]. cbn [found]. by rewrite decide_False by (cbn; tauto).
    - destruct (j_inv_remove S Hk KW DOC a h c s ch cur gi gd ci cd kw i) as (gd' & cd' & I'); [done|done|done| |done|].
      { apply HD. rewrite decide_True by done. by apply elem_of_list_singleton. }
      eapply one_run in Hser as [-> Hser]; [|reflexivity].
      destruct (IH _ _ _ _ _ _ _ _ _ _ _ _ Hfew Hcol Hok Hin I' Hser) as (ans & c' & H1 & H2).
      exists ans, c'. split; [by constructor|]. cbn [found]. by rewrite decide_False by (cbn; tauto).
    - destruct (j_search_facts S Hk KW DOC Htag a h c s ch cur gi gd ci cd kw) as (Wi & Wd & Ni & Nd & Hl & Eo & En & _);
        [by eapply few_h_mono|by eapply col_h_mono|done|done|].
      pose proof (search_seq_eq S s _ _ Wi Wd Ni Nd Hl) as E. rewrite Eo, En, <- fmap_app, <- keep_app, elt_fst in E.
      destruct (j_inv_search S Hk KW DOC Htag Hkw a h c s ch cur gi gd ci cd kw true (keep h kw (ch kw ++ cur kw)) Hfew1 Hcol1 HK I ltac:(done))
        as (ch' & cur' & gi' & gd' & I').
      eapply one_run in Hser as [-> Hser]; [|apply (run_search S _ _ _ _ E)]. cbn [fst snd] in Hser |- *.
      destruct (IH _ _ _ _ _ _ _ _ _ _ _ _ Hfew Hcol Hok Hin I' Hser) as (ans & c' & H1 & H2).
      exists (keep h kw (ch kw ++ cur kw) :: ans), c'. split; [econstructor; [exact E|exact H1]|].
      cbn [found]. rewrite decide_True by done. rewrite H2. done.
    - destruct (j_search_facts S Hk KW DOC Htag a h c s ch cur gi gd ci cd kw) as (Wi & Wd & Ni & Nd & Hl & Eo & En & _);
        [by eapply few_h_mono|by eapply col_h_mono|done|done|].
      destruct (search_par_eq S s _ _ n Ho Wi Wd Nd Hl) as (f0 & Hf0 & Hf).
      rewrite Eo, En, <- !fmap_app, elt_fst in Hf.
      assert (Hp : keep h kw (cur kw) ++ keep h kw (ch kw) ≡ₚ keep h kw (ch kw ++ cur kw)).
      { rewrite keep_app. apply Permutation_app_comm. }
      destruct (j_inv_search S Hk KW DOC Htag Hkw a h c s ch cur gi gd ci cd kw false (keep h kw (cur kw) ++ keep h kw (ch kw)) Hfew1 Hcol1 HK I Hp)
        as (ch' & cur' & gi' & gd' & I').
      set (req := (j_search_request S c kw).2) in *.
      assert (exists ths, f0 = DPar (js_del s) ths [] /\ p_par S req n = Threads req n ths []) as (ths & -> & Ep).
      { unfold p_par, j_par_start, d_search_parallel in *. destruct (ds_count (jr_del req) =? 0)%N.
        { injection Hf0 as <-. by exists []. }
        destruct (_ =? 0)%N; [done|]. destruct (ds_con (jr_del req)) as [con|]; [|done].
        destruct (d_jobs _ con _) as [ths| | |]; try done. cbn [rbind] in *. injection Hf0 as <-. by exists ths. }
      rewrite Ep in Hser. inversion Hser as [|? ? ? ? s2 ? ? Hr Ha Hs']; subst.
      destruct (threads_alone S _ _ Hr req n ths [] eq_refl Ha) as (f & Hst & Hfin & Hend). cbn [snd] in Hst, Hend.
      destruct (Hf f Hst Hfin) as (calls & E & _ & El & _).
      pose proof (run_alone S _ _ Hend _ eq_refl Ha) as Er. cbn [snd] in Er. rewrite (run_par_rest S s req n f _ _ E) in Er.
      injection Er as -> ->. cbn [snd] in Hs'.
      destruct (IH _ _ _ _ _ _ _ _ _ _ _ _ Hfew Hcol Hok Hin I' Hs') as (ans & c' & H1 & H2).
      exists (j_par_list n calls :: ans), c'. split; [econstructor; [exact Hf0|exact Hst|exact Hfin|exact E|exact H1]|].
      cbn [found fst]. rewrite decide_True by done. rewrite H2. done.
    - destruct (j_inv_lost S Hk KW DOC Htag a h c s ch cur gi gd ci cd kw Hfew1 Hcol1 HK I) as (cur' & I').
      eapply one_run in Hser as [-> Hser]; [|reflexivity].
      destruct (IH _ _ _ _ _ _ _ _ _ _ _ _ Hfew Hcol Hok Hin I' Hser) as (ans & c' & H1 & H2).
      exists ans, c'. split; [by constructor|]. cbn [found]. by rewrite decide_False by (cbn; tauto).
  Qed.
End history.

(** ** Progress *)
Definition th_size (th : d_thread) : nat := match dt_removing th with Some _ => 1 | None => 0 end + 2 * length (dt_rest th).
Section progress.
  Variable S : janus.

  (** Whatever the state, a request can be brought to its end. *)
  Lemma proc_completes p s : exists p' s', rtc (step1 S) (p, s) (p', s') /\ answered p'.
  Proof.
    destruct p as [p|req n ths log].
    { exists (Run (Ret (run p s).1)), (run p s).2. split; [apply run_exists|by eexists]. }
    remember (sum_list (th_size <$> ths)) as m eqn:Em. revert ths log s Em.
    induction (lt_wf m) as [m _ IH]. intros ths log s Em.
    destruct (decide (Forall thread_done ths)) as [Hd|Hd].
    - set (q := p_par_rest S req n (d_result_list n log)).
      exists (Run (Ret (run q s).1)), (run q s).2. split; [|by eexists].
      eapply rtc_l; [|apply run_exists]. exists ETau. split; [by constructor|done].
    - apply not_Forall_Exists in Hd; [|apply _]. apply Exists_exists in Hd as (th & Hin & Hnd).
      apply elem_of_list_split in Hin as (pre & post & ->).
      assert (exists e th' calls s', thread_step S th e th' calls /\ happens s e s' /\ th_size th' < th_size th) as (e & th' & calls & s' & Ht & Hs & Hlt).
      { destruct th as [t [[[[i ut] mask] v]|] rest].
        - exists (EPut (DelDb, ut) None). do 3 eexists. split; [constructor|]. split; [done|]. unfold th_size. cbn [dt_removing dt_rest length]. lia.
        - destruct rest as [|[i st] rest]; [by destruct Hnd|].
          destruct (d_token_mask (jn_del S) st) as [ut mask] eqn:Et.
          destruct (jget s (DelDb, ut)) as [v|] eqn:Ev.
          + exists (EGet (DelDb, ut) (Some v)). do 3 eexists. split; [by eapply ts_hit|]. split; [done|]. unfold th_size. cbn [dt_removing dt_rest length]. lia.
          + exists (EGet (DelDb, ut) None). do 3 eexists. split; [by eapply ts_miss|]. split; [done|]. unfold th_size. cbn [dt_removing dt_rest length]. lia. }
      destruct (IH (sum_list (th_size <$> pre ++ th' :: post))) with (ths := pre ++ th' :: post) (log := log ++ calls) (s := s')
        as (p' & s2 & Hr & Ha); [|done|].
      { subst m. rewrite !fmap_app, !fmap_cons.
        assert (forall l1 l2 : list nat, sum_list (l1 ++ l2) = sum_list l1 + sum_list l2) as Happ.
        { clear. induction l1 as [|x l1 IH1]; intros l2; [done|]. csimpl. unfold id in *. specialize (IH1 l2). csimpl in IH1. lia. }
        rewrite !Happ. csimpl. unfold id. lia. }
      exists p', s2. split; [|done]. eapply rtc_l; [|exact Hr]. exists e. split; [by constructor|done].
  Qed.
End progress.
