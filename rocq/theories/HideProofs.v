(** Bijections of functions that move some values and mask others. *)
From stdpp Require Import prelude.
From Coq Require Import NArith Lia Btauto.
From Verif Require Import Base EncModel UtilsModel.

Section swap.
  Context {X : Type} `{EqDecision X}.
  Definition swap (a b x : X) : X := if decide (x = a) then b else if decide (x = b) then a else x.
  Lemma swap_swap a b x : swap a b (swap a b x) = x.
  Proof. unfold swap. repeat case_decide; congruence. Qed.

  (** A permutation that sends each first component to the second one. *)
  Fixpoint perm (l : list (X * X)) (x : X) : X :=
    match l with
    | [] => x
    | (a, b) :: l' => swap (perm l' a) b (perm l' x)
    end.
  Fixpoint unperm (l : list (X * X)) (x : X) : X :=
    match l with
    | [] => x
    | (a, b) :: l' => unperm l' (swap (perm l' a) b x)
    end.
  Lemma unperm_perm l x : unperm l (perm l x) = x.
  Proof. revert x. induction l as [|[a b] l IH]; intros x; [done|]. cbn. by rewrite swap_swap. Qed.
  Lemma perm_unperm l x : perm l (unperm l x) = x.
  Proof. revert x. induction l as [|[a b] l IH]; intros x; [done|]. cbn. by rewrite IH, swap_swap. Qed.
  Lemma perm_inj l x y : perm l x = perm l y -> x = y.
  Proof. intros H. by rewrite <- (unperm_perm l x), H, unperm_perm. Qed.

  Lemma perm_spec l a b : NoDup l.*1 -> NoDup l.*2 -> (a, b) ∈ l -> perm l a = b.
  Proof.
    induction l as [|[a' b'] l IH]; intros H1 H2 Hin; [by apply elem_of_nil in Hin|].
    cbn in H1, H2. apply NoDup_cons in H1 as [N1 H1]. apply NoDup_cons in H2 as [N2 H2]. cbn [perm].
    apply elem_of_cons in Hin as [E|Hin].
    - injection E as -> ->. unfold swap. by rewrite decide_True.
    - rewrite (IH H1 H2 Hin). unfold swap.
      assert (b <> perm l a').
      { intros E. rewrite <- (IH H1 H2 Hin) in E. apply perm_inj in E as ->. apply N1.
        apply elem_of_list_fmap. by exists (a', b). }
      assert (b <> b') by (intros ->; apply N2; apply elem_of_list_fmap; by exists (a, b')).
      by rewrite !decide_False.
  Qed.
  Lemma perm_range l x : perm l x = x \/ (x ∈ l.*1 ++ l.*2 /\ perm l x ∈ l.*1 ++ l.*2).
  Proof.
    induction l as [|[a b] l IH]; [by left|]. cbn [perm fmap list_fmap fst snd].
    assert (Ha : perm l a ∈ (a :: l.*1) ++ b :: l.*2).
    { clear IH. assert (forall y, perm l y = y \/ perm l y ∈ l.*1 ++ l.*2) as IH'.
      { clear. induction l as [|[a b] l IH]; intros y; [by left|]. cbn [perm fmap list_fmap fst snd].
        unfold swap. case_decide; [right; set_solver|]. case_decide; [|].
        - destruct (IH a) as [->|?]; right; set_solver.
        - destruct (IH y) as [->|?]; [by left|right; set_solver]. }
      destruct (IH' a) as [->|?]; set_solver. }
    unfold swap. case_decide as E1.
    - right. split; [|set_solver]. apply perm_inj in E1 as ->. set_solver.
    - case_decide as E2.
      + right. split; [|done]. destruct IH as [IH|[IH _]]; [|set_solver]. rewrite IH in E2. subst. set_solver.
      + destruct IH as [->|[? ?]]; [by left|right; split; set_solver].
  Qed.
  Lemma unperm_out l x : x ∉ l.*1 -> x ∉ l.*2 -> unperm l x = x.
  Proof.
    intros H1 H2. destruct (perm_range l x) as [E|[E _]]; [|set_solver]. by rewrite <- E at 1; rewrite unperm_perm.
  Qed.
  Lemma unperm_spec l a b : NoDup l.*1 -> NoDup l.*2 -> (a, b) ∈ l -> unperm l b = a.
  Proof. intros H1 H2 Hin. rewrite <- (perm_spec l a b H1 H2 Hin). apply unperm_perm. Qed.
End swap.

Section functions.
  Context {X V : Type} `{EqDecision X}.
  (** The correction that is applied to the value at [x]. *)
  Fixpoint corr (l : list (X * X * (V -> V))) (x : X) (v : V) : V :=
    match l with
    | [] => v
    | (_, b, g) :: l' => if decide (x = b) then g v else corr l' x v
    end.
  (** The value at the second component is the corrected one at the first component. *)
  Definition there (l : list (X * X * (V -> V))) (f : X -> V) (x : X) : V := corr l x (f (unperm l.*1 x)).
  Definition back (l : list (X * X * (V -> V))) (f : X -> V) (x : X) : V :=
    corr l (perm l.*1 x) (f (perm l.*1 x)).

  Variable ok : V -> Prop.
  Definition corr_ok (l : list (X * X * (V -> V))) : Prop :=
    Forall (fun t => forall v, ok v -> ok (t.2 v) /\ t.2 (t.2 v) = v) l.
  Lemma corr_corr l x v : corr_ok l -> ok v -> ok (corr l x v) /\ corr l x (corr l x v) = v.
  Proof.
    induction 1 as [|[[a b] g] l Hg _ IH]; intros Hv; [done|]. cbn [corr]. case_decide; [by apply Hg|by apply IH].
  Qed.
  Lemma there_ok l f : corr_ok l -> (forall x, ok (f x)) -> forall x, ok (there l f x).
  Proof. intros Hl Hf x. apply corr_corr; [done|apply Hf]. Qed.
  Lemma back_ok l f : corr_ok l -> (forall x, ok (f x)) -> forall x, ok (back l f x).
  Proof. intros Hl Hf x. apply corr_corr; [done|apply Hf]. Qed.
  Lemma back_there l f : corr_ok l -> (forall x, ok (f x)) -> forall x, back l (there l f) x = f x.
  Proof. intros Hl Hf x. unfold back, there. rewrite unperm_perm. by apply corr_corr. Qed.
  Lemma there_back l f : corr_ok l -> (forall x, ok (f x)) -> forall x, there l (back l f) x = f x.
  Proof. intros Hl Hf x. unfold back, there. rewrite perm_unperm. by apply corr_corr. Qed.

  Lemma corr_spec l a b g v : NoDup l.*1.*2 -> (a, b, g) ∈ l -> corr l b v = g v.
  Proof.
    induction l as [|[[a' b'] g'] l IH]; intros Hn Hin; [by apply elem_of_nil in Hin|].
    cbn in Hn. apply NoDup_cons in Hn as [N1 Hn]. cbn [corr]. apply elem_of_cons in Hin as [E|Hin].
    - injection E as -> -> ->. by rewrite decide_True.
    - rewrite decide_False; [by apply IH|]. intros ->. apply N1.
      apply elem_of_list_fmap. exists (a, b'). split; [done|]. apply elem_of_list_fmap. by exists (a, b', g).
  Qed.
  Lemma corr_out l x v : x ∉ l.*1.*2 -> corr l x v = v.
  Proof.
    induction l as [|[[a' b'] g'] l IH]; intros Hn; [done|]. cbn in Hn. apply not_elem_of_cons in Hn as [N1 Hn].
    cbn [corr]. rewrite decide_False by done. by apply IH.
  Qed.
  Lemma there_spec l f a b g : NoDup l.*1.*1 -> NoDup l.*1.*2 -> (a, b, g) ∈ l -> there l f b = g (f a).
  Proof.
    intros H1 H2 Hin. unfold there. rewrite (corr_spec l a b g) by done. rewrite (unperm_spec l.*1 a b); [done|done|done|].
    apply elem_of_list_fmap. by exists (a, b, g).
  Qed.
  Lemma there_out l f x : x ∉ l.*1.*1 -> x ∉ l.*1.*2 -> there l f x = f x.
  Proof. intros H1 H2. unfold there. rewrite corr_out by done. by rewrite unperm_out. Qed.
End functions.

(** ** Masks *)
Definition xor_bytes (d v : bytes) : bytes := zip_with N.lxor d v.
Lemma lxor_byte a b : (a < 256)%N -> (b < 256)%N -> (N.lxor a b < 256)%N.
Proof.
  intros Ha Hb. destruct (decide (N.lxor a b = 0%N)) as [->|Hn]; [done|].
  apply N.log2_lt_pow2 with (b := 8%N); [lia|]. pose proof (N.log2_lxor a b).
  assert (forall x, (x < 256)%N -> (N.log2 x < 8)%N).
  { intros x Hx. destruct (decide (x = 0%N)) as [->|]; [done|]. apply N.log2_lt_pow2; [lia|done]. }
  pose proof (H0 a Ha). pose proof (H0 b Hb). lia.
Qed.
Lemma xor_bytes_ok d v : length d = length v -> Forall (fun b => (b < 256)%N) d -> Forall (fun b => (b < 256)%N) v ->
  length (xor_bytes d v) = length v /\ Forall (fun b => (b < 256)%N) (xor_bytes d v) /\ xor_bytes d (xor_bytes d v) = v.
Proof.
  revert v. induction d as [|x d IH]; intros [|y v] Hl Hd Hv; try done.
  apply Forall_cons in Hd as [Hx Hd]. apply Forall_cons in Hv as [Hy Hv]. injection Hl as Hl.
  destruct (IH v Hl Hd Hv) as (I1 & I2 & I3). unfold xor_bytes in *. cbn [zip_with length]. split; [lia|]. split.
  - constructor; [by apply lxor_byte|done].
  - rewrite <- N.lxor_assoc, N.lxor_nilpotent, N.lxor_0_l. by f_equal.
Qed.

(** The eight bytes of a number, in the order of xor_mask. *)
Definition be64 (x : N) : bytes :=
  (fun s => N.land (N.shiftr x s) 255) <$> [56; 48; 40; 32; 24; 16; 8; 0]%N.
Lemma land_byte x : (N.land x 255 < 256)%N.
Proof. change 255%N with (N.ones 8). rewrite N.land_ones. by apply N.mod_lt. Qed.
Lemma be64_bytes x : Forall (fun b => (b < 256)%N) (be64 x).
Proof. repeat constructor; apply land_byte. Qed.

Lemma be64_val x : (x < 2 ^ 64)%N -> xor_mask 0 (be64 x) = x.
Proof.
  intros Hx. cbn [be64 fmap list_fmap xor_mask]. apply N.bits_inj. intros n.
  rewrite !N.lxor_spec, N.bits_0. change 255%N with (N.ones 8).
  assert (Hhi : forall n, (64 <= n)%N -> N.testbit x n = false).
  { intros m Hm. destruct (decide (x = 0%N)) as [->|]; [apply N.bits_0|]. apply N.bits_above_log2.
    assert (N.log2 x < 64)%N by (apply N.log2_lt_pow2; [lia|done]). lia. }
  assert (Hb : forall s, N.testbit (N.shiftl (N.land (N.shiftr x s) (N.ones 8)) s) n =
    bool_decide (s <= n < s + 8)%N && N.testbit x n).
  { intros s. destruct (decide (n < s)%N) as [Hn|Hn].
    - rewrite N.shiftl_spec_low by done. rewrite bool_decide_eq_false_2 by lia. done.
    - rewrite N.shiftl_spec_high' by lia. rewrite N.land_spec, N.shiftr_spec'.
      replace (n - s + s)%N with n by lia. rewrite andb_comm. f_equal.
      destruct (decide (n < s + 8)%N) as [Hm|Hm].
      + rewrite N.ones_spec_low by lia. rewrite bool_decide_eq_true_2 by lia. done.
      + rewrite N.ones_spec_high by lia. rewrite bool_decide_eq_false_2 by lia. done. }
  rewrite !Hb. assert (N.testbit (N.land (N.shiftr x 0) (N.ones 8)) n = bool_decide (0 <= n < 0 + 8)%N && N.testbit x n) as ->.
  { rewrite <- Hb. f_equal. by rewrite N.shiftl_0_r. }
  destruct (decide (64 <= n)%N) as [Hn|Hn].
  { rewrite (Hhi n Hn). by rewrite !andb_false_r. }
  destruct (N.testbit x n); [|by rewrite !andb_false_r]. rewrite !andb_true_r.
  repeat case_bool_decide; try done; lia.
Qed.

Lemma xor_mask_0 i m : xor_mask i m = N.lxor i (xor_mask 0 m).
Proof.
  destruct m as [|m0 [|m1 [|m2 [|m3 [|m4 [|m5 [|m6 [|m7 m]]]]]]]]; cbn [xor_mask]; try (by rewrite N.lxor_0_r).
  rewrite N.lxor_0_l, !N.lxor_assoc. done.
Qed.
Lemma xor_mask_xor d v : 8 <= length d -> length d = length v ->
  xor_mask 0 (xor_bytes d v) = N.lxor (xor_mask 0 d) (xor_mask 0 v).
Proof.
  intros Hd Hl.
  destruct d as [|d0 [|d1 [|d2 [|d3 [|d4 [|d5 [|d6 [|d7 d]]]]]]]]; cbn in Hd; try lia.
  destruct v as [|v0 [|v1 [|v2 [|v3 [|v4 [|v5 [|v6 [|v7 v]]]]]]]]; cbn in Hl; try lia.
  unfold xor_bytes. cbn [zip_with xor_mask]. rewrite !N.shiftl_lxor, !N.lxor_0_l.
  apply N.bits_inj. intros n. rewrite !N.lxor_spec.
  repeat match goal with |- context [N.testbit ?a n] => generalize (N.testbit a n); intros ? end.
  btauto.
Qed.
Lemma xor_mask_app d e : 8 <= length d -> xor_mask 0 (d ++ e) = xor_mask 0 d.
Proof.
  intros Hd. destruct d as [|d0 [|d1 [|d2 [|d3 [|d4 [|d5 [|d6 [|d7 d]]]]]]]]; cbn in Hd; try lia. done.
Qed.

(** The correction of a mask that turns the masked document [i] into [i']. *)
Definition mask_delta (i i' : N) : bytes := be64 (N.lxor i i') ++ replicate 8 0%N.
Lemma mask_delta_len i i' : length (mask_delta i i') = 16.
Proof. done. Qed.
Lemma mask_delta_ok i i' v : (i < 2 ^ 64)%N -> (i' < 2 ^ 64)%N -> length v = 16 ->
  xor_mask i' (xor_bytes (mask_delta i i') v) = xor_mask i v.
Proof.
  intros Hi Hi' Hv. rewrite xor_mask_0, (xor_mask_0 i), xor_mask_xor by (rewrite mask_delta_len; lia).
  unfold mask_delta. rewrite xor_mask_app by (cbn; lia). rewrite be64_val.
  - rewrite (N.lxor_comm i i'), <- N.lxor_assoc, <- (N.lxor_assoc i' i' i). by rewrite N.lxor_nilpotent, N.lxor_0_l.
  - destruct (decide (N.lxor i i' = 0%N)) as [->|Hn]; [done|]. apply N.log2_lt_pow2; [lia|].
    pose proof (N.log2_lxor i i') as Hl.
    assert (forall x, (x < 2 ^ 64)%N -> (N.log2 x < 64)%N) as Hlog.
    { intros x Hx. destruct (decide (x = 0%N)) as [->|]; [done|]. apply N.log2_lt_pow2; [lia|done]. }
    pose proof (Hlog i Hi). pose proof (Hlog i' Hi'). lia.
Qed.
