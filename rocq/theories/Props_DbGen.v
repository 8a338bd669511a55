(** C52: the random database generator. *)
From stdpp Require Import prelude strings.
From Coq Require Import ZArith NArith Lia.
From Verif Require Import Base DbGenModel DbGenSpec DbGenProofs DbGenThreads.
Local Open Scope N_scope.
Local Arguments N.of_nat : simpl never.
Local Arguments N.to_nat : simpl never.
Local Arguments N.modulo : simpl never.
Local Arguments N.div : simpl never.
Local Arguments N.pow : simpl never.
Local Arguments N.add : simpl never.
Local Arguments N.sub : simpl never.
Local Arguments N.mul : simpl never.
Local Arguments N.min : simpl never.

(** The calls as strings. *)
Definition strings (log : list (kwd * N)) : list (string * N) := prod_map kw_string id <$> log.

Lemma times_cnt k log : N.of_nat (times (kw_string k) (strings log)) = cnt (is_kw k) log.
Proof.
  unfold times, strings, cnt. f_equal. induction log as [|[k' i] log IH]; [done|]. csimpl.
  destruct (decide (k' = k)) as [->|Hne].
  - rewrite !filter_cons_True; [simpl; by rewrite IH|by apply bool_decide_eq_true|done].
  - rewrite !filter_cons_False; [done|..].
    + simpl. unfold is_kw. by rewrite bool_decide_eq_true.
    + simpl. by intros ?%kw_string_inj.
Qed.

Lemma prefix_group l k : k <> KEmpty ->
  String.prefix (glabel_string l +:+ "_") (kw_string k) = in_group l k.
Proof.
  destruct k as [b x y|l' x y|v x y|]; [..|done].
  - destruct b, l; done.
  - destruct l, l'; try done; intros _; unfold kw_string; generalize (to_string x +:+ "_" +:+ to_string y); by intros [].
  - destruct l; done.
Qed.

Lemma calls_with_cnt (P : kwd -> bool) pre log : cnt (is_kw KEmpty) log = 0 ->
  (forall k, k <> KEmpty -> String.prefix pre (kw_string k) = P k) ->
  N.of_nat (calls_with pre (strings log)) = cnt P log.
Proof.
  intros He HP. unfold calls_with, strings, cnt in *. f_equal. induction log as [|[k i] log IH]; [done|].
  revert He. csimpl. intros He. destruct (decide (k = KEmpty)) as [->|Hne].
  - rewrite filter_cons_True in He by done. simpl in He. lia.
  - rewrite filter_cons_False in He by (simpl; unfold is_kw; by rewrite bool_decide_eq_true).
    specialize (IH He). destruct (P k) eqn:E.
    + rewrite !filter_cons_True; [simpl; by rewrite IH|done|simpl; by rewrite HP].
    + rewrite !filter_cons_False; [done|simpl; congruence|simpl; rewrite HP by done; congruence].
Qed.

Lemma announced_label name size : (name, size) ∈ announced -> exists l, name = glabel_string l /\ size = gsize l.
Proof.
  intros H. unfold announced in H. repeat (apply elem_of_cons in H as [[= -> ->]|H]); [..|by apply elem_of_nil in H];
    [exists G10_1|exists G10_2|exists G10_3|exists G10_4|exists G10_5|exists G10_6|exists G20|exists G30|exists G60]; split; by vm_compute.
Qed.

Section props.
  Context (ngroups : nat -> N) (below : nat -> N -> bool).
  (** With no random groups the threshold is zero: no number is below. *)
  Context (Hz : forall lv ind, ngroups lv = 0 -> below lv ind = false).

  (** Exactly [n] documents, no division by zero and no access out of a vector; the
      number of entries reported is the number of calls, and each fixed-size group gets
      each document once. *)
  Theorem C52_documents n p streams : 0 < p -> n + p < 2 ^ 64 ->
    exists log, gen_db ngroups below n p streams = Ok (log, n, N.of_nat (length log)) /\
      forall name size, (name, size) ∈ announced -> N.of_nat (calls_with (name +:+ "_") (strings log)) = n.
  Proof using Hz.
    intros Hp Hn. destruct (gen_db_ok ngroups below Hz n p streams Hp Hn) as (log & E & HD).
    exists log. split; [done|]. intros name size Hin. destruct (announced_label _ _ Hin) as (l & -> & _).
    rewrite (calls_with_cnt (in_group l)); [apply HD|apply HD|]. intros k Hk. by apply prefix_group.
  Qed.

  (** A keyword of a fixed-size group gets at most as many documents as its size, as
      long as the thread does not run out of counters. *)
  Theorem C52_group n p streams log docs entries name size t c : (name, size) ∈ announced -> 0 < p -> n + p < 2 ^ 64 ->
    gen_db ngroups below n p streams = Ok (log, docs, entries) ->
    n <= p * (size * (2 ^ 32 - 1)) \/ c <> 2 ^ 32 - 2 ->
    (times (name +:+ "_" +:+ to_string t +:+ "_" +:+ to_string c) (strings log) <= N.to_nat size)%nat.
  Proof using Hz.
    intros Hin Hp Hn E H. destruct (announced_label _ _ Hin) as (l & -> & ->). change (glabel_string l +:+ _) with (kw_string (KGroup l t c)). destruct (gen_db_ok ngroups below Hz n p streams Hp Hn) as (log' & E' & HD).
    rewrite E' in E. injection E as -> _ _.
    assert (N.of_nat (times (kw_string (KGroup l t c)) (strings log)) <= gsize l); [|lia].
    rewrite times_cnt. destruct (decide (0 <= t /\ t < p)) as [Ht|Ht].
    - rewrite (db_kw _ _ _ _ _ _ HD) by lia. apply gcount_le. rewrite N2Nat.id.
      destruct H as [H|H].
      + left. change M with (2 ^ 32 - 1). unfold docs_of. set (x := gsize l * (2 ^ 32 - 1)) in *.
        pose proof (N.div_mod' n p) as H1. pose proof (N.mod_lt n p ltac:(lia)) as H2.
        destruct (N.ltb_spec t (n mod p)) as [H3|H3]; [|rewrite N.add_0_r; apply N.div_le_upper_bound; lia].
        assert (n / p < x); [|lia]. apply N.div_lt_upper_bound; [lia|].
        assert (n <> p * x); [|lia]. intros ->. rewrite N.mul_comm, N.mod_mul in H3 by lia. lia.
      + right. by change (M - 1) with (2 ^ 32 - 2).
    - rewrite (db_kw0 _ _ _ _ _ _ HD) by done. lia.
  Qed.

  (** A keyword of a random group of 10^d documents gets at most this many documents,
      except when d = 3: the groups of 10^2 use the same keywords. *)
  Theorem C52_rand n p streams log docs entries d t g : 0 < p -> n + p < 2 ^ 64 ->
    gen_db ngroups below n p streams = Ok (log, docs, entries) ->
    (times (kw_string (KRand d t g)) (strings log) <=
       N.to_nat (if decide (d = 3) then 1100 else if decide (d = 4 \/ d = 5 \/ d = 6) then 10 ^ d else 0)%N)%nat.
  Proof using Hz.
    intros Hp Hn E. destruct (gen_db_ok ngroups below Hz n p streams Hp Hn) as (log' & E' & HD).
    rewrite E' in E. injection E as -> _ _.
    assert (N.of_nat (times (kw_string (KRand d t g)) (strings log)) <= capacity d levels) as H.
    { rewrite times_cnt. apply HD. }
    repeat case_decide; simplify_eq.
    - change (capacity 3 levels) with 1100 in H. lia.
    - destruct H1 as [->|[->| ->]].
      + change (capacity 4 levels) with 10000 in H. change (10 ^ 4) with 10000. lia.
      + change (capacity 5 levels) with 100000 in H. change (10 ^ 5) with 100000. lia.
      + change (capacity 6 levels) with 1000000 in H. change (10 ^ 6) with 1000000. lia.
    - cut (capacity d levels = 0); [lia|]. unfold levels. cbn [capacity].
      rewrite !(proj2 (N.eqb_neq _ d)) by lia. done.
  Qed.

  (** When the number of hardware threads is not known (0), nothing is generated. *)
  Theorem C52_zero_threads n streams : gen_db ngroups below n 0 streams = Ok ([], 0, 0).
  Proof using. done. Qed.
End props.

(** The computation of the code, without rounding, meets the hypothesis. *)
Lemma exact_zero n p lv ind : exact_groups n p lv = 0 -> exact_below n p lv ind = false.
Proof. intros H. unfold exact_below. rewrite H, !N.mul_0_l, N.mul_0_r, N.mul_0_l. apply N.ltb_ge. lia. Qed.

(** C52 is false of the code for large databases: once the 32-bit counter of a group is
    exhausted, all the remaining documents go to the last keyword. *)
Theorem C52_group_refuted : exists n p streams l size t c log docs entries,
  (glabel_string l, size) ∈ announced /\ 0 < p /\ n + p < 2 ^ 64 /\
  gen_db (exact_groups n p) (exact_below n p) n p streams = Ok (log, docs, entries) /\
  (N.to_nat size < times (kw_string (KGroup l t c)) (strings log))%nat.
Proof.
  set (n := 10 * (2 ^ 32 - 1) + 1).
  destruct (gen_db_ok (exact_groups n 1) (exact_below n 1) (exact_zero n 1) n 1 (fun _ _ => 0)) as (log & E & HD); [done..|].
  exists n, 1, (fun _ _ => 0), G10_1, 10, 0, (2 ^ 32 - 2), log, n, (N.of_nat (length log)).
  split; [apply (bool_decide_unpack _); by vm_compute|].
  split; [done|]. split; [done|]. split; [exact E|].
  assert (10 < N.of_nat (times (kw_string (KGroup G10_1 0 (2 ^ 32 - 2))) (strings log))); [|lia].
  rewrite times_cnt, (db_kw _ _ _ _ _ _ HD) by lia.
  assert (docs_of n 1 0 = n) as -> by (by vm_compute).
  change (2 ^ 32 - 2) with (M - 1). rewrite gcount_last; rewrite N2Nat.id; by vm_compute.
Qed.

(** The keywords "Group-rand-10^3" hold more than 10^3 documents: those of the groups of
    10^2 documents are added to them (db_generator.cpp:281). *)
Theorem C52_rand_refuted : exists n p streams d t g log docs entries,
  gen_db (exact_groups n p) (exact_below n p) n p streams = Ok (log, docs, entries) /\
  (N.to_nat (10 ^ d)%N < times (kw_string (KRand d t g)) (strings log))%nat.
Proof.
  destruct (gen_db_ok (exact_groups 1200 1) (exact_below 1200 1) (exact_zero 1200 1) 1200 1 (fun _ _ => 0)) as (log & E & _); [done..|].
  exists 1200, 1, (fun _ _ => 0), 3, 0, 0, log, 1200, (N.of_nat (length log)). split; [exact E|].
  assert (H : match gen_db (exact_groups 1200 1) (exact_below 1200 1) 1200 1 (fun _ _ => 0) with
    Ok x => N.of_nat (times (kw_string (KRand 3 0 0)) (strings x.1.1)) | _ => 0 end = 1100) by (by vm_compute).
  rewrite E in H. cbn [fst snd] in H. change (10 ^ 3) with 1000. lia.
Qed.

(** The theorems on a concrete database: 2500 documents and three threads. *)
Definition ex_stream (t i : N) : N := (i * 6364136223846793005 + t * 1442695040888963407) mod 2 ^ 64.
Example C52_example :
  match gen_db (exact_groups 2500 3) (exact_below 2500 3) 2500 3 ex_stream with
  | Ok (log, docs, entries) => docs = 2500 /\ times "Group-10^1_2_7" (strings log) = 10%nat /\
      times "Group-10^1_0_83" (strings log) = 4%nat /\ calls_with "Group-60_" (strings log) = 2500%nat /\
      calls_with "Group-rand-10^3_" (strings log) <> O /\ 37500 < entries
  | _ => False
  end.
Proof. vm_compute. split_and!; done. Qed.
Example C52_hypotheses : 0 < 3 /\ 2500 + 3 < 2 ^ 64 /\ 2500 <= 3 * (gsize G10_1 * (2 ^ 32 - 1)) /\
  exact_groups 2500 3 0 = 6 /\ exact_groups 2500 3 4 = 0.
Proof. vm_compute. repeat split; discriminate. Qed.

Print Assumptions C52_documents.
Print Assumptions C52_group.
Print Assumptions C52_rand.
Print Assumptions C52_zero_threads.
Print Assumptions C52_group_refuted.
Print Assumptions C52_rand_refuted.
