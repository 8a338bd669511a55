(** Lemmas about the random database generator: counting, all the threads, the strings. *)
From stdpp Require Import prelude strings.
From Coq Require Import ZArith NArith Lia.
From Coq Require Import Ascii.
From Coq Require Decimal DecimalString DecimalN.
From Verif Require Import Base DbGenModel DbGenProofs.
Local Open Scope N_scope.
Local Arguments N.of_nat : simpl never.
Local Arguments N.to_nat : simpl never.
Local Arguments N.modulo : simpl never.
Local Arguments N.div : simpl never.
Local Arguments N.pow : simpl never.
Local Arguments N.add : simpl never.
Local Arguments N.sub : simpl never.
Local Arguments N.mul : simpl never.
Local Arguments N.min : simpl never.

(** * Counting *)
Lemma gcount_le l c m : N.of_nat m <= gsize l * M \/ c <> M - 1 -> gcount l c 0 m <= gsize l.
Proof.
  intros H. unfold gcount. pose proof (gsize_pos l) as Hs. pose proof M_pos as HM.
  assert (Hsub : filter (fun j => N.min (N.of_nat j / gsize l) (M - 1) = c) (seq 0 m) ⊆+
                 seq (N.to_nat (c * gsize l)) (N.to_nat (gsize l))).
  { apply NoDup_submseteq; [apply NoDup_filter, NoDup_seq|].
    intros j [Hj Hin]%elem_of_list_filter. apply elem_of_seq in Hin. apply elem_of_seq.
    assert (N.of_nat j / gsize l = c) as Hd.
    { destruct H as [H|H]; [|lia].
      assert (N.of_nat j / gsize l < M); [|lia]. apply N.div_lt_upper_bound; lia. }
    apply div_char in Hd; [|done]. lia. }
  apply submseteq_length in Hsub. rewrite seq_length in Hsub. lia.
Qed.

Lemma gcount_last l m : gsize l * (M - 1) <= N.of_nat m -> gcount l (M - 1) 0 m = N.of_nat m - gsize l * (M - 1).
Proof.
  intros H. unfold gcount. pose proof (gsize_pos l) as Hs. pose proof M_pos as HM.
  assert (HP : filter (fun j => N.min (N.of_nat j / gsize l) (M - 1) = M - 1) (seq 0 m) ≡ₚ
                 seq (N.to_nat (gsize l * (M - 1))) (m - N.to_nat (gsize l * (M - 1)))).
  { apply NoDup_Permutation; [apply NoDup_filter, NoDup_seq|apply NoDup_seq|].
    intros j. rewrite elem_of_list_filter, !elem_of_seq.
    assert (M - 1 <= N.of_nat j / gsize l <-> gsize l * (M - 1) <= N.of_nat j); [|lia].
    split.
    - intros Hd. pose proof (N.mul_div_le (N.of_nat j) (gsize l) ltac:(lia)). nia.
    - intros Hd. by apply N.div_le_lower_bound; [lia|]. }
  rewrite HP, seq_length. lia.
Qed.

(** * All the threads *)
Lemma cnt0 (P : kwd -> bool) log : Forall (fun x : kwd * N => P x.1 = false) log -> cnt P log = 0.
Proof.
  unfold cnt. induction 1 as [|x log H _ IH]; [done|]. rewrite filter_cons_False by congruence. done.
Qed.
Lemma cnt_other t tid (k : kwd) log : Forall (fun x : kwd * N => of_tid t x.1) log -> t <> tid ->
  (exists l c, k = KGroup l tid c) \/ (exists d g, k = KRand d tid g) -> cnt (is_kw k) log = 0.
Proof.
  intros HF Hne Hk. apply cnt0. eapply Forall_impl; [exact HF|]. intros [k' i] Ht. simpl in *.
  unfold is_kw. apply bool_decide_eq_false. intros ->.
  destruct Hk as [(l & c & ->)|(d & g & ->)]; simpl in Ht; congruence.
Qed.

Section gen.
  Context (ngroups : nat -> N) (below : nat -> N -> bool).
  Context (Hz : forall lv ind, ngroups lv = 0 -> below lv ind = false).

  Record db_ok (n p : N) (lo hi : N) (log : list (kwd * N)) (docs : N) : Prop := DbOk {
    db_group : forall l, cnt (in_group l) log = docs;
    db_pct : forall b side, side = 1 \/ side = 2 -> cnt (in_pct b side) log = docs;
    db_kw : forall l t c, lo <= t -> t < hi -> cnt (is_kw (KGroup l t c)) log = gcount l c 0 (N.to_nat (docs_of n p t));
    db_kw0 : forall l t c, ~ (lo <= t /\ t < hi) -> cnt (is_kw (KGroup l t c)) log = 0;
    db_rand : forall d t g, cnt (is_kw (KRand d t g)) log <= capacity d levels;
    db_rand0 : forall d t g, ~ (lo <= t /\ t < hi) -> cnt (is_kw (KRand d t g)) log = 0;
    db_empty : cnt (is_kw KEmpty) log = 0
  }.

  Lemma threads_ok n p streams : 0 < p -> n + p < 2 ^ 64 -> forall k t, t + N.of_nat k = p ->
    exists log, gen_threads ngroups below k n p t streams =
        Ok (log, N.of_nat k * (n / p) + (n mod p - t), N.of_nat (length log)) /\
      db_ok n p t p log (N.of_nat k * (n / p) + (n mod p - t)).
  Proof.
    intros Hp Hn k. pose proof (N.mod_lt n p ltac:(lia)) as Hr.
    induction k as [|k IH]; intros t Ht; simpl.
    - assert (t = p) as -> by lia. exists [].
      assert (N.of_nat 0 * (n / p) + (n mod p - p) = 0) as -> by lia.
      split; [done|]. split; intros; rewrite ?cnt_nil; try lia.
    - destruct (job_ok ngroups below Hz n p t (streams t) ltac:(lia) Hn) as (log1 & E1 & [L1 L2 L3 L4 L5]).
      destruct (IH (t + 1) ltac:(lia)) as (log2 & E2 & [D1 D2 D3 D4 D5 D6 D7]).
      rewrite E1. cbn [rbind fst snd]. rewrite E2. cbn [rbind fst snd].
      exists (log1 ++ log2).
      assert (Es : docs_of n p t + (N.of_nat k * (n / p) + (n mod p - (t + 1))) =
                   N.of_nat (S k) * (n / p) + (n mod p - t)).
      { unfold docs_of. rewrite Nat2N.inj_succ, N.mul_succ_l. destruct (N.ltb_spec t (n mod p)); lia. }
      split; [rewrite Es, app_length, Nat2N.inj_add; done|].
      rewrite <- Es. split.
      + intros l. rewrite cnt_app, L2, D1, N2Nat.id. done.
      + intros b side Hs. rewrite cnt_app, L3, D2, N2Nat.id by done. done.
      + intros l t' c Hl Hh. rewrite cnt_app. destruct (decide (t' = t)) as [->|Hne].
        * rewrite L4, D4 by lia. lia.
        * rewrite D3 by lia. rewrite (cnt_other t t') by eauto. lia.
      + intros l t' c H. rewrite cnt_app, D4 by lia. rewrite (cnt_other t t') by first [lia|eauto]. lia.
      + intros d t' g. rewrite cnt_app. destruct (decide (t' = t)) as [->|Hne].
        * rewrite D6 by lia. specialize (L5 d (N.to_nat g)). rewrite N2Nat.id in L5. lia.
        * rewrite (cnt_other t t') by eauto. specialize (D5 d t' g). lia.
      + intros d t' g H. rewrite cnt_app, D6 by lia. rewrite (cnt_other t t') by first [lia|eauto]. lia.
      + rewrite cnt_app, D7. rewrite cnt0; [lia|]. eapply Forall_impl; [exact L1|].
        intros [k' i] Hk. simpl in *. unfold is_kw. apply bool_decide_eq_false. by intros ->.
  Qed.

  Lemma gen_db_ok n p streams : 0 < p -> n + p < 2 ^ 64 ->
    exists log, gen_db ngroups below n p streams = Ok (log, n, N.of_nat (length log)) /\ db_ok n p 0 p log n.
  Proof.
    intros Hp Hn. unfold gen_db. destruct (threads_ok n p streams Hp Hn (N.to_nat p) 0) as (log & E & HD); [lia|].
    assert (Es : N.of_nat (N.to_nat p) * (n / p) + (n mod p - 0) = n).
    { rewrite N2Nat.id, N.sub_0_r. symmetry. apply N.div_mod'. }
    rewrite Es in *. eauto.
  Qed.
End gen.

(** * The strings *)
Fixpoint no_us (s : string) : Prop :=
  match s with EmptyString => True | String a s' => a <> "_"%char /\ no_us s' end.
Lemma no_us_app s t : no_us s -> no_us t -> no_us (s +:+ t).
Proof. induction s as [|a s IH]; simpl; [done|]. intros [H1 H2] H3. split; [done|]. auto. Qed.
Lemma us_split s1 s2 t1 t2 : no_us s1 -> no_us s2 ->
  s1 +:+ "_" +:+ t1 = s2 +:+ "_" +:+ t2 -> s1 = s2 /\ t1 = t2.
Proof.
  revert s2. induction s1 as [|a s1 IH]; intros [|b s2]; simpl; intros H1 H2 H.
  - by injection H.
  - injection H as H _. by destruct H2 as [[]].
  - injection H as H _. by destruct H1 as [[]].
  - injection H as -> H. destruct H1 as [_ H1]. destruct H2 as [_ H2].
    destruct (IH s2 H1 H2 H) as [-> ->]. done.
Qed.
Lemma no_us_uint u : no_us (DecimalString.NilEmpty.string_of_uint u).
Proof. induction u; simpl; [done|split; [done|assumption]..]. Qed.
Lemma to_string_no_us n : no_us (to_string n).
Proof. unfold to_string, DecimalString.NilZero.string_of_uint. destruct (N.to_uint n); simpl; try (split; [done|]); try apply no_us_uint; done. Qed.
Lemma to_string_inj n m : to_string n = to_string m -> n = m.
Proof.
  unfold to_string. intros H.
  assert (Hne : forall k, N.to_uint k <> Decimal.Nil).
  { intros k E. pose proof (DecimalN.Unsigned.of_to k) as H1. rewrite E in H1. simpl in H1. subst k. done. }
  pose proof (DecimalString.NilZero.usu _ (Hne n)) as H1. pose proof (DecimalString.NilZero.usu _ (Hne m)) as H2.
  rewrite H in H1. rewrite H1 in H2. injection H2 as H2. by apply DecimalN.Unsigned.to_uint_inj in H2.
Qed.

Definition kw_head (k : kwd) : string :=
  match k with
  | KPct b _ _ => pbase_string b
  | KGroup l _ _ => glabel_string l
  | KRand v _ _ => "Group-rand-10^" +:+ to_string v
  | KEmpty => ""
  end.
Lemma kw_head_no_us k : no_us (kw_head k).
Proof.
  destruct k as [b| l| v|]; simpl; [destruct b; simpl; by repeat split|destruct l; simpl; by repeat split| |done].
  repeat (split; [done|]). apply to_string_no_us.
Qed.
Lemma kw_string_inj k1 k2 : kw_string k1 = kw_string k2 -> k1 = k2.
Proof.
  assert (Hs : forall k, k = KEmpty \/ exists a b, kw_string k = kw_head k +:+ "_" +:+ to_string a +:+ "_" +:+ to_string b /\
    match k with KPct _ x y => x = a /\ y = b | KGroup _ x y => x = a /\ y = b | KRand _ x y => x = a /\ y = b | KEmpty => False end).
  { intros [b x y|l x y|v x y|]; [right..|left; done]; exists x, y; split; auto. }
  assert (Hemp : forall a s, "" <> a +:+ "_" +:+ s) by (intros [|c a] s; discriminate).
  intros H. destruct (Hs k1) as [->|(a1 & b1 & E1 & H1)]; destruct (Hs k2) as [->|(a2 & b2 & E2 & H2)].
  - done.
  - rewrite E2 in H. simpl in H. by apply Hemp in H.
  - rewrite E1 in H. symmetry in H. by apply Hemp in H.
  - rewrite E1, E2 in H. apply us_split in H; [|apply kw_head_no_us..]. destruct H as [Hh H].
    apply us_split in H; [|apply to_string_no_us..]. destruct H as [Ha Hb].
    apply to_string_inj in Ha. apply to_string_inj in Hb. subst a2 b2.
    destruct k1 as [p x y|l x y|v x y|]; destruct k2 as [p' x' y'|l' x' y'|v' x' y'|]; try done;
      destruct H1 as [-> ->]; destruct H2 as [-> ->]; simpl in Hh.
    + destruct p, p'; simpl in Hh; try done.
    + destruct p, l'; done.
    + destruct p; done.
    + destruct l, p'; done.
    + destruct l, l'; simpl in Hh; try done.
    + destruct l; done.
    + destruct p'; done.
    + destruct l'; done.
    + injection Hh as Hh. apply to_string_inj in Hh. by subst.
Qed.
