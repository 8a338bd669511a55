(** C52 and C69 with the floating-point computations of the generator. *)
From stdpp Require Import prelude strings.
From Coq Require Import ZArith NArith Lia Reals Lra.
From Verif Require Import Base DbGenModel DbGenSpec DbGenProofs DbGenThreads Props_DbGen Props_DbPct
  GenFloatModel GenFloatProofs GenFloatAcc.
Local Open Scope N_scope.
Local Arguments N.of_nat : simpl never.
Local Arguments N.to_nat : simpl never.
Local Arguments N.modulo : simpl never.
Local Arguments N.pow : simpl never.
Local Arguments N.mul : simpl never.

Lemma gen_db_fl_eq n p streams : 0 < p < 2 ^ 32 -> n < 2 ^ 64 ->
  exists ngroups below, (forall lv ind, ngroups lv = 0 -> below lv ind = false) /\
    gen_db_fl n p streams = gen_db ngroups below n p streams.
Proof.
  intros Hp Hn. unfold gen_db_fl. rewrite (proj2 (N.eqb_neq p 0)) by lia.
  assert (forall lv, (lv < 5)%nat -> exists g, fl_groups n p lv = Ok g) as Hg.
  { intros lv Hlv. pose proof (level_size_ok lv Hlv).
    destruct (optimal_ok (tenths (level_tenths lv)) n p (level_size lv)) as (g & Eg & _).
    - apply tenths_btw, level_tenths_ok.
    - done.
    - assert (2 ^ 32 * 1000000 < 2 ^ 64) by done. nia.
    - exists g. exact Eg. }
  destruct (Hg 0%nat ltac:(lia)) as [g2 ->], (Hg 1%nat ltac:(lia)) as [g3 ->], (Hg 2%nat ltac:(lia)) as [g4 ->],
    (Hg 3%nat ltac:(lia)) as [g5 ->], (Hg 4%nat ltac:(lia)) as [g6 ->].
  cbn [rbind]. cbn zeta. do 2 eexists. split; [|reflexivity].
  intros lv ind E. cbn beta. rewrite E. apply below_zero. lia.
Qed.

(** C52 for the generator with its floating-point thresholds, and a number of threads that
    fits in an unsigned int: no undefined conversion, no division by zero, no access outside
    of a vector; [n] documents, each of them once in each fixed-size group. *)
Theorem C52_float n p streams : 0 < p < 2 ^ 32 -> n + p < 2 ^ 64 ->
  exists log, gen_db_fl n p streams = Ok (log, n, N.of_nat (length log)) /\
    (forall name size, (name, size) ∈ announced -> N.of_nat (calls_with (name +:+ "_") (strings log)) = n) /\
    (forall name size t c, (name, size) ∈ announced -> n <= p * (size * (2 ^ 32 - 1)) \/ c <> 2 ^ 32 - 2 ->
       (times (name +:+ "_" +:+ to_string t +:+ "_" +:+ to_string c) (strings log) <= N.to_nat size)%nat).
Proof.
  intros Hp Hn. destruct (gen_db_fl_eq n p streams Hp) as (ng & be & Hz & ->); [lia|].
  destruct (C52_documents ng be Hz n p streams) as (log & E & H); [lia|lia|].
  exists log. split; [exact E|]. split; [exact H|]. intros name size t c Hin Hc.
  eapply C52_group; [exact Hz|exact Hin| | |exact E|exact Hc]; lia.
Qed.
Print Assumptions C52_float.

(** C69, in the same way. *)
Theorem C69_float n p streams log docs entries name q side i : (name, q) ∈ percentiles -> 0 < p < 2 ^ 32 -> n + p < 2 ^ 64 ->
  gen_db_fl n p streams = Ok (log, docs, entries) -> side = 1 \/ side = 2 ->
  times (name +:+ "_" +:+ to_string i +:+ "_" +:+ to_string side) (strings log)
    = docs_such (fun d => part side d mod q =? i) (strings log).
Proof.
  intros Hin Hp Hn E Hs. destruct (gen_db_fl_eq n p streams Hp) as (ng & be & Hz & E'); [lia|].
  rewrite E' in E. eapply C69_percentiles; [exact Hz|exact Hin| | |exact E|exact Hs]; lia.
Qed.
Print Assumptions C69_float.

(** On a concrete database. *)
Example C52_float_ex :
  match gen_db_fl 150 1 ex_stream with
  | Ok (log, docs, entries) => docs = 150 /\ times "Group-10^1_0_7" (strings log) = 10%nat /\
      calls_with "Group-rand-10^3_" (strings log) <> O /\
      times "10_5_1" (strings log) = docs_such (fun d => d mod 10 =? 5) (strings log)
  | _ => False
  end.
Proof. vm_compute. split_and!; done. Qed.

Lemma rand_level lv d t f : rand_groups !! lv = Some (d, t, f) ->
  (lv < 5)%nat /\ level_size lv = 10 ^ d /\ level_tenths lv = t /\ level_factor lv = f /\ 1 <= t <= 10 /\ 100 <= 10 ^ d <= 1000000.
Proof.
  intros H. pose proof (lookup_lt_Some _ _ _ H) as Hl. simpl in Hl. split; [done|].
  do 5 (destruct lv as [|lv]; [injection H as <- <- <-; vm_compute; split_and!; done|]). lia.
Qed.
(** The thresholds of the generator, computed with rounding, are those of the formulas up to a
    relative error of 2^-48: the number of groups of a thread, ... *)
Theorem C52_rand_groups n step lv d t f g : rand_groups !! lv = Some (d, t, f) -> 0 < n < 2 ^ 64 -> 0 < step < 2 ^ 32 ->
  fl_groups n step lv = Ok g ->
  12 * (step * 10 ^ d * g) * 2 ^ 48 <= t * n * (2 ^ 48 + 1) /\ t * n * (2 ^ 48 - 1) < 12 * (step * 10 ^ d * (g + 1)) * 2 ^ 48.
Proof.
  intros H Hn Hs E. destruct (rand_level _ _ _ _ H) as (Hl & E1 & E2 & E3 & Ht & Hd). unfold fl_groups in E. rewrite E1, E2 in E.
  assert (1 <= step * 10 ^ d < 2 ^ 64) as Hm.
  { assert (2 ^ 32 * 1000000 < 2 ^ 64) by done. set (x := 10 ^ d) in *. nia. }
  destruct (optimal_acc t n step (10 ^ d) g ltac:(lia) ltac:(lia) Hm E) as [H1 H2]. revert H1 H2. clear -Hn Ht.
  generalize (step * 10 ^ d). intros m H1 H2.
  assert (slack = / IZR (2 ^ 48))%R as Es by reflexivity. rewrite Es in H1, H2.
  set (K := IZR (2 ^ 48)) in *. assert (0 < K)%R as PK by (apply (IZR_lt 0); lia).
  apply (Rmult_le_compat_r K) in H1; [|lra]. apply (Rmult_lt_compat_r K) in H2; [|lra].
  replace (IZR (Z.of_N t) * IZR (Z.of_N n) * (1 + / K) * K)%R with (IZR (Z.of_N t) * IZR (Z.of_N n) * (K + 1))%R in H1 by (field; lra).
  replace (IZR (Z.of_N t) * IZR (Z.of_N n) * (1 - / K) * K)%R with (IZR (Z.of_N t) * IZR (Z.of_N n) * (K - 1))%R in H2 by (field; lra).
  unfold K in *. rewrite <- plus_IZR, <- !mult_IZR in H1. rewrite <- minus_IZR, <- plus_IZR, <- !mult_IZR in H2.
  apply le_IZR in H1. apply lt_IZR in H2. split.
  - apply N2Z.inj_le. rewrite !N2Z.inj_mul. rewrite N2Z.inj_add. change (Z.of_N (2 ^ 48)) with (2 ^ 48)%Z. change (Z.of_N 1) with 1%Z. change (Z.of_N 12) with 12%Z. lia.
  - apply N2Z.inj_lt. rewrite !N2Z.inj_mul. rewrite N2Z.inj_add. change (Z.of_N (2 ^ 48)) with (2 ^ 48)%Z. change (Z.of_N 1) with 1%Z. change (Z.of_N 12) with 12%Z.
    change (Z.of_N (2 ^ 48 - 1)) with (2 ^ 48 - 1)%Z. lia.
Qed.
Print Assumptions C52_rand_groups.
(** ... and the documents put in a random group. *)
Theorem C52_rand_drawn n step lv d t f g ind : rand_groups !! lv = Some (d, t, f) -> 0 < n < 2 ^ 64 -> 0 < step < 2 ^ 64 ->
  0 < g < 2 ^ 64 -> 0 < ind < 2 ^ 64 ->
  (ind * (10 * n) * (2 ^ 48 + 1) <= f * (g * 10 ^ d * step) * (2 ^ 64 - 1) * 2 ^ 48 -> fl_below n step lv g ind = true) /\
  (f * (g * 10 ^ d * step) * (2 ^ 64 - 1) * (2 ^ 48 + 1) <= ind * (10 * n) * 2 ^ 48 -> fl_below n step lv g ind = false).
Proof.
  intros H Hn Hs Hg Hi. destruct (rand_level _ _ _ _ H) as (Hl & E1 & E2 & E3 & Ht & Hd).
  destruct (below_acc n step lv g ind ltac:(lia) ltac:(lia) ltac:(lia) Hl ltac:(lia)) as [B1 B2].
  rewrite E1, E3 in B1, B2. clear -B1 B2 Hn Hi.
  assert (slack = / IZR (2 ^ 48))%R as Es by reflexivity. rewrite Es in B1, B2.
  set (K := IZR (2 ^ 48)) in *. assert (0 < K)%R as PK by (apply (IZR_lt 0); lia).
  set (U := IZR (2 ^ 64 - 1)) in *. assert (0 < U)%R as PU by (apply (IZR_lt 0); lia).
  assert (0 < IZR (Z.of_N n))%R as Pn by (apply (IZR_lt 0); lia).
  assert (EZ : forall a b c e, IZR (Z.of_N (a * b * c * e)) = (IZR (Z.of_N a) * IZR (Z.of_N b) * IZR (Z.of_N c) * IZR (Z.of_N e))%R).
  { intros. rewrite !N2Z.inj_mul, !mult_IZR. done. }
  set (I := IZR (Z.of_N ind)) in *. set (n' := IZR (Z.of_N n)) in *. set (F := IZR (Z.of_N f)) in *.
  set (Q := (IZR (Z.of_N g) * IZR (Z.of_N (10 ^ d)) * IZR (Z.of_N step))%R) in *.
  split; intros Hc; apply N2Z.inj_le, IZR_le in Hc; rewrite !N2Z.inj_mul, !mult_IZR in Hc;
    change (IZR (Z.of_N (2 ^ 64 - 1))) with U in Hc; change (IZR (Z.of_N (2 ^ 48))) with K in Hc;
    change (IZR (Z.of_N 10)) with 10%R in Hc; fold Q I n' F in Hc;
    replace (IZR (Z.of_N (2 ^ 48 + 1))) with (K + 1)%R in Hc by (unfold K; rewrite <- plus_IZR; reflexivity).
  - apply B1. apply (Rmult_le_reg_r (10 * n' * U * K)); [repeat apply Rmult_lt_0_compat; lra|].
    replace (I / U * (1 + / K) * (10 * n' * U * K))%R with (I * (10 * n') * (K + 1))%R by (field; lra).
    replace (F / 10 * Q / n' * (10 * n' * U * K))%R with (F * Q * U * K)%R by (field; lra). exact Hc.
  - apply B2. apply (Rmult_le_reg_r (10 * n' * U * K)); [repeat apply Rmult_lt_0_compat; lra|].
    replace (I / U * (10 * n' * U * K))%R with (I * (10 * n') * K)%R by (field; lra).
    replace (F / 10 * Q / n' * (1 + / K) * (10 * n' * U * K))%R with (F * Q * U * (K + 1))%R by (field; lra). exact Hc.
Qed.
Print Assumptions C52_rand_drawn.
(** On a database of a million documents with four threads: the numbers of groups and two numbers
    drawn. *)
Example ex_rand : rand_groups !! 0%nat = Some (2, 9, 14) /\ fl_groups 1000000 4 0 = Ok 1875 /\
  fl_groups 1000000 4 2 = Ok 20 /\ fl_groups 1000000 4 4 = Ok 0 /\
  2 ^ 63 * (10 * 1000000) * (2 ^ 48 + 1) <= 14 * (1875 * 10 ^ 2 * 4) * (2 ^ 64 - 1) * 2 ^ 48 /\
  fl_below 1000000 4 0 1875 (2 ^ 63) = true /\
  12 * (20 * 10 ^ 4 * 4) * (2 ^ 64 - 1) * (2 ^ 48 + 1) <= (2 ^ 64 - 1) * (10 * 1000000) * 2 ^ 48 /\
  fl_below 1000000 4 2 20 (2 ^ 64 - 1) = false.
Proof. vm_compute. split_and!; first [reflexivity|discriminate]. Qed.
