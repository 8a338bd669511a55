(** C73: the keys of a client survive crashes and restarts. *)
From stdpp Require Import prelude.
From Coq Require Import NArith Lia.
From Verif Require Import Base EncModel KeyModel KeySpec KeyProofs.

(** ** Diana *)
(** Whatever the sequence of attempts to construct a client on a path, with their failures,
    short writes, short reads and crashes, all the clients that are constructed have the
    same keys, generated by one of the attempts. *)
Theorem C73_diana_keys : forall l : list attempt, Forall d_sized l ->
  let outs := (attempts d_ctor KNone l).2 in
  (forall c, Some c ∈ outs ->
     Exists (fun a => c = DKeys (at_keys a).1.1 (at_keys a).1.2 (at_keys a).2) l) /\
  (forall c1 c2, Some c1 ∈ outs -> Some c2 ∈ outs -> c1 = c2).
Proof.
  intros l Hl outs.
  apply (attempts_none d_ctor (fun a c => c = DKeys (at_keys a).1.1 (at_keys a).1.2 (at_keys a).2)
    ltac:(intros; congruence) d_sized
    (fun a f => d_sized a /\ leaves (at_env a) (at_keys a).1.1 (at_keys a).1.2 (at_keys a).2 f)); [done| | |done].
  - intros [[[k0 k1] k2] e r cr] Ha. unfold d_ctor. cbn [at_keys at_env at_read fst snd] in *. cbn [k_runner].
    assert (forall n, leaves e k0 k1 k2
      (k_disk KNone (take n (if ke_mkdir e then KMkdir :: (d_init e k0 k1 k2).1 else [])))) as Hlv.
    { intros n. destruct (ke_mkdir e); [|rewrite take_nil; by left].
      unfold d_init. destruct (k_write_files e 0 [k0; k1; k2]).2 eqn:Ew; cbn [fst].
      - apply creation_leaves. destruct (ke_creates e); [by right|by left].
      - rewrite <- (app_nil_r (k_write_files e 0 [k0; k1; k2]).1). apply creation_leaves. by left. }
    destruct (ke_mkdir e); cbn [fst snd].
    2:{ split; [|done]. intros n. left. by rewrite take_nil. }
    split; [|split].
    + intros n. destruct (Hlv n) as [->|(gs & c & HE & ? & ?)]; [by left|]. right. exists (KDir gs c).
      split; [done|]. split; [done|]. right. exists gs, c. done.
    + intros c Hc. destruct (d_init e k0 k1 k2).2 as [c'| | |] eqn:Ei; try done.
      destruct (ke_setup e); [|done]. injection Hc as ->. unfold d_init in Ei.
      destruct (k_write_files e 0 [k0; k1; k2]).2; [|done]. cbn [snd] in Ei.
      destruct (ke_creates e && ke_core e); [|done]. by injection Ei as <-.
    + intros c _. pose proof (write_prefix e [k0; k1; k2] [] (length (k_write_files e 0 [k0; k1; k2]).1) false)
        as (gs & _ & HE). cbn [app length replicate] in HE. rewrite take_ge in HE by done.
      rewrite k_disk_cons. cbn [k_apply]. unfold d_init.
      destruct (k_write_files e 0 [k0; k1; k2]).2; cbn [fst]; [|by rewrite HE].
      rewrite k_disk_app, HE. by destruct (ke_creates e).
  - intros [[[k0 k1] k2] e r cr] b d c ((H0 & H1 & H2) & [?|(gs & c' & [= ->] & Hleft & _)]); [done|].
    unfold d_ctor. cbn [at_keys at_env at_read fst snd] in *. cbn [k_runner snd]. intros Hc.
    by eapply d_construct_left.
Qed.
Print Assumptions C73_diana_keys.

(** A client whose key files were written completely can be opened again, with the same
    keys, whatever happened in between. *)
Theorem C73_diana_reopen : forall a b l c,
  d_sized a -> at_crash a = None -> (forall i, 32 <= ke_written (at_env a) i) ->
  (attempts d_ctor KNone [a]).2 = [Some c] ->
  at_crash b = None -> (forall i, 32 <= kr_read (at_read b) i) -> kr_core (at_read b) = true ->
  exists outs, (attempts d_ctor KNone (a :: l ++ [b])).2 = Some c :: outs ++ [Some c].
Proof.
  intros [[[k0 k1] k2] e r cr] b l c (H0 & H1 & H2) Hcr Hw Hout Hcb Hrb Hkb.
  cbn [at_keys at_env at_read at_crash fst snd] in *. subst cr.
  set (a := Attempt (k0, k1, k2) e r None) in *.
  assert (d_ctor a KNone = (KMkdir :: (k_write_files e 0 [k0; k1; k2]).1 ++ [KCounters], Ok (DKeys k0 k1 k2)) /\
          (k_write_files e 0 [k0; k1; k2]).2 = true /\ c = DKeys k0 k1 k2) as (Ha & Hok & ->).
  { cbn [attempts at_crash snd a] in Hout. revert Hout. unfold d_ctor at 1. cbn [k_runner at_keys at_env at_read fst snd a].
    unfold d_ctor, d_init. cbn [k_runner at_keys at_env at_read fst snd a].
    destruct (ke_mkdir e); [|done]. destruct (k_write_files e 0 [k0; k1; k2]).2; cbn [fst snd]; [|done].
    destruct (ke_creates e); cbn [andb snd]; [|done]. destruct (ke_core e); [|done]. destruct (ke_setup e); [|done].
    intros [= <-]. done. }
  set (d := KDir [Some k0; Some k1; Some k2] true).
  assert (k_disk KNone (d_ctor a KNone).1 = KAt d) as Hd.
  { rewrite Ha. cbn [fst]. rewrite k_disk_cons, k_disk_app. cbn [k_apply].
    pose proof (write_full e [k0; k1; k2] [] false Hok) as HF. cbn [app length replicate] in HF.
    rewrite HF. cbn. rewrite !take_ge; [done|..]; rewrite ?H0, ?H1, ?H2; apply Hw. }
  assert (forall m, (attempts d_ctor (KAt d) m).1 = KAt d) as Hsame.
  { induction m as [|x m IH]; [done|]. cbn [attempts fst].
    assert ((d_ctor x (KAt d)).1 = []) as -> by done.
    destruct (at_crash x); rewrite ?take_nil; apply IH. }
  assert (forall m1 m2 f, (attempts d_ctor f (m1 ++ m2)).2 =
     (attempts d_ctor f m1).2 ++ (attempts d_ctor (attempts d_ctor f m1).1 m2).2) as Happ.
  { induction m1 as [|x m1 IH]; intros m2 f; [done|]. cbn [attempts app fst snd]. by rewrite IH. }
  cbn [attempts snd at_crash a]. fold a. rewrite Hd, Ha. cbn [snd]. rewrite Happ, Hsame.
  exists (attempts d_ctor (KAt d) l).2. f_equal. f_equal.
  cbn [attempts snd]. rewrite Hcb. unfold d_ctor. cbn [k_runner snd]. unfold d_construct, d. cbn [kd_files kd_counters negb].
  unfold k_read. rewrite !take_ge; [|rewrite ?H0, ?H1, ?H2; apply Hrb..].
  rewrite H0, H1, H2. cbn. by rewrite Hkb.
Qed.
Print Assumptions C73_diana_reopen.

(** The full property is that a constructed client can be constructed again.  It fails: a
    write that is cut short is not noticed, and the client works until it is closed; it
    can never be opened again.  The same after a crash during the first construction. *)
Theorem C73_diana_reopen_refuted :
  (exists a c, d_sized a /\ (attempts d_ctor KNone [a]).2 = [Some c] /\
     forall l, Forall (fun o => o = None) (attempts d_ctor (attempts d_ctor KNone [a]).1 l).2) /\
  (exists a, d_sized a /\ (exists n, at_crash a = Some n) /\
     forall l, Forall (fun o => o = None) (attempts d_ctor (attempts d_ctor KNone [a]).1 l).2).
Proof.
  assert (forall d, (forall r, exists x, d_construct r d = Throw x) ->
    forall l, Forall (fun o => o = None) (attempts d_ctor (KAt d) l).2) as Hstuck.
  { intros d Hd. induction l as [|x l IH]; [constructor|]. cbn [attempts snd].
    assert ((d_ctor x (KAt d)).1 = []) as -> by done. constructor.
    - unfold d_ctor. cbn [k_runner snd]. destruct (Hd (at_read x)) as [y ->]. by destruct (at_crash x).
    - destruct (at_crash x); rewrite ?take_nil; apply IH. }
  set (k := replicate 32 7%N). split.
  - exists (Attempt (k, k, k) (KEnv true (fun _ => true) (fun _ => 31) true true true) (KREnv (fun _ => 0) true) None).
    exists (DKeys k k k). split; [done|]. split; [by vm_compute|].
    assert ((attempts d_ctor KNone [Attempt (k, k, k) (KEnv true (fun _ => true) (fun _ => 31) true true true)
       (KREnv (fun _ => 0) true) None]).1 = KAt (KDir (replicate 3 (Some (replicate 31 7%N))) true)) as -> by by vm_compute.
    apply Hstuck. intros r. exists RuntimeError. unfold d_construct. cbn [kd_files kd_counters negb replicate].
    rewrite bool_decide_eq_false_2; [done|]. unfold k_read. rewrite take_length. cbn. lia.
  - exists (Attempt (k, k, k) (KEnv true (fun _ => true) (fun _ => 32) true true true) (KREnv (fun _ => 0) true) (Some 40)).
    split; [done|]. split; [by eexists|].
    assert (exists g, (attempts d_ctor KNone [Attempt (k, k, k) (KEnv true (fun _ => true) (fun _ => 32) true true true)
       (KREnv (fun _ => 0) true) (Some 40)]).1 = KAt (KDir g false)) as [g ->] by (eexists; by vm_compute).
    apply Hstuck. intros r. exists RuntimeError. unfold d_construct. cbn [kd_files kd_counters negb].
    by repeat case_match.
Qed.
Print Assumptions C73_diana_reopen_refuted.

(** ** Sophos *)
(** The same, if truncated secret keys are refused by the library: the size of that file is
    not checked. *)
Theorem C73_sophos_keys : forall (K : Type) (load : bytes -> option K) (l : list attempt),
  Forall (fun a => so_sized a /\ load_prefix load (at_keys a).1.1) l ->
  let outs := (attempts (so_ctor load) KNone l).2 in
  (forall c, Some c ∈ outs ->
     Exists (fun a => exists t, load (at_keys a).1.1 = Some t /\ c = SoKeys t (at_keys a).1.2 (at_keys a).2) l) /\
  (forall c1 c2, Some c1 ∈ outs -> Some c2 ∈ outs -> c1 = c2).
Proof.
  intros K load l Hl outs.
  apply (attempts_none (so_ctor load)
    (fun a c => exists t, load (at_keys a).1.1 = Some t /\ c = SoKeys t (at_keys a).1.2 (at_keys a).2)
    ltac:(intros ? ? ? (? & ? & ?) (? & ? & ?); congruence)
    (fun a => so_sized a /\ load_prefix load (at_keys a).1.1)
    (fun a f => (so_sized a /\ load_prefix load (at_keys a).1.1) /\
       leaves (at_env a) (at_keys a).1.1 (at_keys a).1.2 (at_keys a).2 f)); [done| | |done].
  - intros [[[k0 k1] k2] e r cr] Ha. unfold so_ctor. cbn [at_keys at_env at_read fst snd] in *. cbn [k_runner].
    assert (forall n, leaves e k0 k1 k2
      (k_disk KNone (take n (if ke_mkdir e then KMkdir :: (so_init load e k0 k1 k2).1 else [])))) as Hlv.
    { intros n. destruct (ke_mkdir e); [|rewrite take_nil; by left].
      unfold so_init. destruct (k_write_files e 0 [k0; k1; k2]).2 eqn:Ew; cbn [fst].
      - apply creation_leaves. destruct (load k0), (ke_creates e); [by right|by left..].
      - rewrite <- (app_nil_r (k_write_files e 0 [k0; k1; k2]).1). apply creation_leaves. by left. }
    destruct (ke_mkdir e); cbn [fst snd].
    2:{ split; [|done]. intros n. left. by rewrite take_nil. }
    split; [|split].
    + intros n. destruct (Hlv n) as [->|(gs & c & HE & ? & ?)]; [by left|]. right. exists (KDir gs c).
      split; [done|]. split; [done|]. right. exists gs, c. done.
    + intros c Hc. destruct (so_init load e k0 k1 k2).2 as [c'| | |] eqn:Ei; try done.
      destruct (ke_setup e); [|done]. injection Hc as ->. unfold so_init in Ei.
      destruct (k_write_files e 0 [k0; k1; k2]).2; [|done]. cbn [snd] in Ei. unfold so_client in Ei.
      destruct (load k0) as [t|]; [|done]. exists t. split; [done|].
      destruct (ke_creates e && ke_core e); [|done]. by injection Ei as <-.
    + intros c _. pose proof (write_prefix e [k0; k1; k2] [] (length (k_write_files e 0 [k0; k1; k2]).1) false)
        as (gs & _ & HE). cbn [app length replicate] in HE. rewrite take_ge in HE by done.
      rewrite k_disk_cons. cbn [k_apply]. unfold so_init.
      destruct (k_write_files e 0 [k0; k1; k2]).2; cbn [fst]; [|by rewrite HE].
      rewrite k_disk_app, HE. by destruct (load k0), (ke_creates e).
  - intros [[[k0 k1] k2] e r cr] b d c (((H1 & H2) & Hp) & [?|(gs & c' & [= ->] & Hleft & _)]); [done|].
    unfold so_ctor. cbn [at_keys at_env at_read fst snd] in *. cbn [k_runner snd]. intros Hc.
    by eapply so_construct_left.
Qed.
Print Assumptions C73_sophos_keys.

(** A Sophos client too may be constructed and then never opened again. *)
Theorem C73_sophos_reopen_refuted :
  exists (load : bytes -> option bytes) a c,
    so_sized a /\ load_prefix load (at_keys a).1.1 /\ (attempts (so_ctor load) KNone [a]).2 = [Some c] /\
    forall l, Forall (fun o => o = None) (attempts (so_ctor load) (attempts (so_ctor load) KNone [a]).1 l).2.
Proof.
  set (load := fun b : bytes => if bool_decide (b = [1; 2; 3]%N) then Some b else None).
  set (k := replicate 32 7%N).
  assert (forall d, (forall r, exists x, so_construct load r d = Throw x) ->
    forall l, Forall (fun o => o = None) (attempts (so_ctor load) (KAt d) l).2) as Hstuck.
  { intros d Hd. induction l as [|x l IH]; [constructor|]. cbn [attempts snd].
    assert ((so_ctor load x (KAt d)).1 = []) as -> by done. constructor.
    - unfold so_ctor. cbn [k_runner snd]. destruct (Hd (at_read x)) as [y ->]. by destruct (at_crash x).
    - destruct (at_crash x); rewrite ?take_nil; apply IH. }
  exists load, (Attempt ([1; 2; 3]%N, k, k) (KEnv true (fun _ => true) (fun i => if i then 2 else 32) true true true)
     (KREnv (fun _ => 0) true) None), (SoKeys [1; 2; 3]%N k k).
  split; [done|]. split.
  { intros n. cbn [at_keys fst]. unfold load at 1 2. case_bool_decide as E; [right|by left]. rewrite E. done. }
  split; [by vm_compute|].
  assert ((attempts (so_ctor load) KNone [Attempt ([1; 2; 3]%N, k, k)
     (KEnv true (fun _ => true) (fun i => if i then 2 else 32) true true true) (KREnv (fun _ => 0) true) None]).1 =
     KAt (KDir [Some [1; 2]%N; Some k; Some k] true)) as -> by by vm_compute.
  apply Hstuck. intros r. exists RuntimeError. unfold so_construct. cbn [kd_files kd_counters negb].
  destruct (negb _); [done|]. destruct (negb _); [done|]. unfold so_client, load.
  rewrite bool_decide_eq_false_2; [done|]. unfold k_read. intros E. apply (f_equal length) in E.
  rewrite take_length in E. cbn in E. lia.
Qed.
Print Assumptions C73_sophos_reopen_refuted.

(** The hypotheses hold of a sequence of three attempts: one that fails to create the
    directory, one that fails in the setup of the server, one that succeeds. *)
Example C73_ex :
  let k (i : N) := replicate 32 i in
  let e mk su := KEnv mk (fun _ => true) (fun _ => 100) true true su in
  let r := KREnv (fun _ => 100) true in
  let l := [Attempt (k 1, k 2, k 3)%N (e false true) r None; Attempt (k 4, k 5, k 6)%N (e true false) r None;
            Attempt (k 7, k 8, k 9)%N (e true true) r None] in
  Forall d_sized l /\ (attempts d_ctor KNone l).2 = [None; None; Some (DKeys (k 4) (k 5) (k 6))]%N /\
  Forall (fun a => so_sized a /\ load_prefix (fun b : bytes => if bool_decide (length b = 32) then Some b else None)
    (at_keys a).1.1) l /\
  d_sized (Attempt (k 4, k 5, k 6)%N (e true true) r None) /\
  (attempts d_ctor KNone [Attempt (k 4, k 5, k 6)%N (e true true) r None]).2 = [Some (DKeys (k 4) (k 5) (k 6))]%N.
Proof.
  cbn zeta. split; [by repeat constructor|]. split; [by vm_compute|]. split.
  - assert (forall (i : N) n, let b := replicate 32 i in
      (if bool_decide (length (take n b) = 32) then Some (take n b) else None) = None \/
      (if bool_decide (length (take n b) = 32) then Some (take n b) else None) =
      (if bool_decide (length b = 32) then Some b else None)) as H.
    { intros i n b. subst b. destruct (decide (32 <= n)) as [Hn|Hn].
      - right. by rewrite take_ge.
      - left. rewrite bool_decide_eq_false_2; [done|]. rewrite take_length. cbn. lia. }
    repeat (apply Forall_cons; split; [split; [done|intros n; apply H]|]). apply Forall_nil; done.
  - split; [by repeat constructor|by vm_compute].
Qed.
