(** Bounds on the floating-point computations of the random database generator. *)
From stdpp Require Import prelude.
From Coq Require Import NArith ZArith Lia Reals Lra.
From Flocq Require Import Core.Core IEEE754.BinarySingleNaN.
From Verif Require Import Base FloatModel FloatProofs DbGenModel GenFloatModel.
Local Open Scope R_scope.
Local Arguments Z.pow : simpl never.
Local Arguments N.pow : simpl never.
Local Arguments Z.of_N : simpl never.

Section fmt.
  Context (prec emax : Z) (Hp : Prec_gt_0 prec) (He : Prec_lt_emax prec emax).
  Context (Hmin : (3 - emax - prec <= 0)%Z).
  Notation fexpf := (SpecFloat.fexp prec emax).
  Definition rndf (x : R) : R := round radix2 fexpf ZnearestE x.

  (** lower ends: 0 or a power of 2 that is an integer *)
  Definition low (x : R) : Prop := x = 0 ∨ ∃ j, (0 <= j)%Z ∧ x = bpow radix2 j.
  Definition btw (lo : R) (k : Z) (x : binary_float prec emax) : Prop :=
    is_finite x = true ∧ lo <= B2R x <= bpow radix2 k.

  Lemma format_bpow j : (0 <= j)%Z → generic_format radix2 fexpf (bpow radix2 j).
  Proof.
    intros Hj. apply generic_format_bpow. unfold SpecFloat.fexp, SpecFloat.emin.
    pose proof (Hp : (0 < prec)%Z). lia.
  Qed.
  Lemma format_low x : low x → generic_format radix2 fexpf x.
  Proof. intros [->|(j & Hj & ->)]; [apply generic_format_0|by apply format_bpow]. Qed.
  Lemma low_pos x : low x → 0 <= x.
  Proof. intros [->|(j & Hj & ->)]; [lra|apply bpow_ge_0]. Qed.

  Lemma rndf_btw lo k x : low lo → (0 <= k < emax)%Z → lo <= x <= bpow radix2 k →
    lo <= rndf x <= bpow radix2 k ∧ Rlt_bool (Rabs (rndf x)) (bpow radix2 emax) = true.
  Proof.
    intros Hl Hk [H1 H2].
    assert (lo <= rndf x <= bpow radix2 k) as H.
    { split.
      - apply round_ge_generic; [apply fexp_correct; done|apply valid_rnd_N|by apply format_low|done].
      - apply round_le_generic; [apply fexp_correct; done|apply valid_rnd_N|apply format_bpow; lia|done]. }
    split; [done|]. apply Rlt_bool_true. pose proof (low_pos lo Hl).
    rewrite Rabs_pos_eq by lra. apply Rle_lt_trans with (bpow radix2 k); [lra|]. apply bpow_lt. lia.
  Qed.

  Lemma norm_btw z e s lo k : low lo → (0 <= k < emax)%Z →
    lo <= F2R (Float radix2 z e) <= bpow radix2 k →
    btw lo k (binary_normalize prec emax Hp He mode_NE z e s).
  Proof.
    intros Hl Hk H. pose proof (binary_normalize_correct prec emax Hp He mode_NE z e s) as HB.
    cbn zeta in HB. change (round_mode mode_NE) with ZnearestE in HB.
    destruct (rndf_btw lo k _ Hl Hk H) as [Hr Hb]. unfold rndf in *. rewrite Hb in HB.
    destruct HB as (HB & HF & _). split; [done|]. by rewrite HB.
  Qed.

  Lemma mult_btw x y lo k : is_finite x = true → is_finite y = true → low lo → (0 <= k < emax)%Z →
    lo <= B2R x * B2R y <= bpow radix2 k → btw lo k (@Bmult prec emax Hp He mode_NE x y).
  Proof.
    intros Fx Fy Hl Hk H. pose proof (Bmult_correct prec emax Hp He mode_NE x y) as HB.
    change (round_mode mode_NE) with ZnearestE in HB.
    destruct (rndf_btw lo k _ Hl Hk H) as [Hr Hb]. unfold rndf in *. rewrite Hb in HB.
    destruct HB as (HB & HF & _). rewrite Fx, Fy in HF. split; [done|]. by rewrite HB.
  Qed.

  Lemma div_btw x y lo k : is_finite x = true → B2R y ≠ 0 → low lo → (0 <= k < emax)%Z →
    lo <= B2R x / B2R y <= bpow radix2 k → btw lo k (@Bdiv prec emax Hp He mode_NE x y).
  Proof.
    intros Fx Fy Hl Hk H. pose proof (Bdiv_correct prec emax Hp He mode_NE x y Fy) as HB.
    change (round_mode mode_NE) with ZnearestE in HB.
    destruct (rndf_btw lo k _ Hl Hk H) as [Hr Hb]. unfold rndf in *. rewrite Hb in HB.
    destruct HB as (HB & HF & _). rewrite Fx in HF. split; [done|]. by rewrite HB.
  Qed.
End fmt.

Lemma low0 : low 0.
Proof. by left. Qed.
Lemma lowb j : (0 <= j)%Z → low (bpow radix2 j).
Proof. intros ?. right. by exists j. Qed.

Lemma F2R_0e z : F2R (Float radix2 z 0) = IZR z.
Proof. unfold F2R. simpl. lra. Qed.

Notation btwd := (btw 53 1024).
Notation btwl := (btw 64 16384).

Lemma double_btw z lo k : low lo → (0 <= k < 1024)%Z → lo <= IZR z <= bpow radix2 k →
  btwd lo k (double_of_Z z).
Proof. intros. apply norm_btw; [lia|done|done|]. by rewrite F2R_0e. Qed.
Lemma ld_btw z lo k : low lo → (0 <= k < 16384)%Z → lo <= IZR z <= bpow radix2 k →
  btwl lo k (ld_of_Z z).
Proof. intros. apply norm_btw; [lia|done|done|]. by rewrite F2R_0e. Qed.

Lemma promote_btw (x : double) lo k : low lo → (0 <= k < 16384)%Z → btwd lo k x →
  btwl lo k (ld_of_double x).
Proof.
  intros Hl Hk [F B]. destruct x as [s|s| |s m e Hb]; [split; done|done|done|].
  apply norm_btw; [lia|done|done|]. exact B.
Qed.

Lemma tenths_btw t : (t <= 20)%N → btwd 0 1 (tenths t).
Proof.
  intros Ht. destruct (double_of_Z_ok (Z.of_N t)) as [F B]; [lia|].
  destruct (double_of_Z_ok 10) as [F10 B10]; [lia|].
  apply div_btw; [lia|done|rewrite B10; lra|apply low0|lia|].
  rewrite B, B10. change (bpow radix2 1) with 2.
  assert (0 <= IZR (Z.of_N t) <= 20) by (split; apply IZR_le; lia). lra.
Qed.
Lemma tenths12_btw : btwd 1 1 (tenths 12).
Proof.
  destruct (double_of_Z_ok 12) as [F B]; [lia|].
  destruct (double_of_Z_ok 10) as [F10 B10]; [lia|].
  apply div_btw; [lia|done|rewrite B10; lra|apply (lowb 0); lia|lia|].
  change (Z.of_N 12) with 12%Z. rewrite B, B10. change (bpow radix2 1) with 2. lra.
Qed.

(** the numbers of groups are defined *)
Lemma optimal_ok (fraction : double) n step size : btwd 0 1 fraction →
  (n < 2 ^ 64)%N → (64 <= step * size < 2 ^ 64)%N →
  ∃ g, optimal_num_group fraction n step size = Ok g ∧ (g <= 2 ^ 59)%N.
Proof.
  intros Hf Hn Hs. unfold optimal_num_group. rewrite N.mod_small by lia.
  set (m := (step * size)%N) in *.
  destruct (promote_btw _ 0 1 low0 ltac:(lia) Hf) as [F1 B1].
  destruct (ld_btw (Z.of_N n) 0 64 low0) as [F2 B2]; [lia| |].
  { change (bpow radix2 64) with (IZR (2 ^ 64)). split; apply IZR_le; lia. }
  destruct (promote_btw _ 1 1 (lowb 0 ltac:(lia)) ltac:(lia) tenths12_btw) as [F3 B3].
  destruct (ld_btw (Z.of_N m) (bpow radix2 6) 64 (lowb 6 ltac:(lia))) as [F4 B4]; [lia| |].
  { change (bpow radix2 6) with (IZR 64). change (bpow radix2 64) with (IZR (2 ^ 64)). split; apply IZR_le; lia. }
  change (bpow radix2 1) with 2 in *. change (bpow radix2 6) with 64 in *.
  assert (bpow radix2 65 = 2 * bpow radix2 64) as E65.
  { change (bpow radix2 65) with (IZR (2 ^ 65)). change (bpow radix2 64) with (IZR (2 ^ 64)).
    rewrite <- mult_IZR. done. }
  assert (bpow radix2 65 = 64 * bpow radix2 59) as E59.
  { change (bpow radix2 65) with (IZR (2 ^ 65)). change (bpow radix2 59) with (IZR (2 ^ 59)).
    rewrite <- mult_IZR. done. }
  pose proof (bpow_gt_0 radix2 64) as P64.
  destruct (mult_btw 64 16384 ld_prec ld_emax ltac:(lia) (ld_of_double fraction) (ld_of_Z (Z.of_N n)) 0 65) as [F5 B5];
    [done|done|apply low0|lia|rewrite E65; nra|].
  destruct (mult_btw 64 16384 ld_prec ld_emax ltac:(lia) (ld_of_double (tenths 12)) (ld_of_Z (Z.of_N m)) 64 65) as [F6 B6];
    [done|done|apply (lowb 6); lia|lia|rewrite E65; nra|].
  set (a := Bmult mode_NE (ld_of_double fraction) _) in *.
  set (b := Bmult mode_NE (ld_of_double (tenths 12)) _) in *.
  change (ldmult (ld_of_double fraction) _) with a. change (ldmult (ld_of_double (tenths 12)) _) with b.
  assert (0 <= B2R a / B2R b <= bpow radix2 59) as Hq.
  { split.
    - apply Rmult_le_pos; [lra|]. apply Rlt_le, Rinv_0_lt_compat. lra.
    - apply Rmult_le_reg_r with (B2R b); [lra|]. unfold Rdiv. rewrite Rmult_assoc, Rinv_l by lra.
      pose proof (bpow_gt_0 radix2 59). nra. }
  destruct (div_btw 64 16384 ld_prec ld_emax ltac:(lia) a b 0 59 F5 ltac:(lra) low0 ltac:(lia) Hq) as [F7 B7].
  change (Bdiv mode_NE a b) with (lddiv a b) in *.
  destruct (Bnearbyint_correct 64 16384 ld_emax mode_DN (lddiv a b)) as (B8 & F8 & _).
  rewrite round_FIX_IZR in B8. change (Bnearbyint mode_DN (lddiv a b)) with (ldfloor (lddiv a b)) in *.
  set (z := round_mode mode_DN (B2R (lddiv a b))) in *.
  assert (0 <= z <= 2 ^ 59)%Z as Hz.
  { unfold z, round_mode. split.
    - apply Zfloor_lub. lra.
    - apply le_IZR. eapply Rle_trans; [apply Zfloor_lb|]. exact (proj2 B7). }
  assert (Btrunc (ldfloor (lddiv a b)) = z) as Ht.
  { apply eq_IZR. rewrite (Btrunc_correct 64 16384 ld_emax), round_FIX_IZR, B8, Ztrunc_IZR. done. }
  unfold u64_of_ld. rewrite F8, F7, Ht. cbn zeta.
  rewrite (proj2 (andb_true_iff _ _)) by (split; [apply Z.leb_le|apply Z.ltb_lt]; lia).
  exists (Z.to_N z). split; [done|]. lia.
Qed.

(** ** no group: nothing is below the threshold *)
Lemma zero_mult_l (s : bool) (y : ldouble) : is_finite y = true → ∃ s', ldmult (B754_zero s) y = B754_zero s'.
Proof. destruct y; try done; intros _; by eexists. Qed.
Lemma zero_mult_r (s : bool) (y : ldouble) : is_finite y = true → ∃ s', ldmult y (B754_zero s) = B754_zero s'.
Proof. destruct y; try done; intros _; by eexists. Qed.
Lemma zero_div (s : bool) (y : ldouble) :
  lddiv (B754_zero s) y = B754_nan ∨ ∃ s', lddiv (B754_zero s) y = B754_zero s'.
Proof. destruct y; (by left) || (right; by eexists). Qed.

Lemma tenths_fin t : (t <= 20)%N → is_finite (ld_of_double (tenths t)) = true.
Proof. intros Ht. exact (proj1 (promote_btw _ 0 1 low0 ltac:(lia) (tenths_btw t Ht))). Qed.
Lemma ld_fin z : (0 <= z < 2 ^ 64)%Z → is_finite (ld_of_Z z) = true.
Proof.
  intros Hz. apply (proj1 (ld_btw z 0 64 low0 ltac:(lia) ltac:(change (bpow radix2 64) with (IZR (2 ^ 64)); split; apply IZR_le; lia))).
Qed.

Lemma level_factor_ok lv : (level_factor lv <= 20)%N.
Proof. do 5 (destruct lv as [|lv]; [unfold level_factor; simpl; lia|]). by destruct lv. Qed.
Lemma level_tenths_ok lv : (level_tenths lv <= 20)%N.
Proof. do 5 (destruct lv as [|lv]; [unfold level_tenths; simpl; lia|]). by destruct lv. Qed.
Lemma level_size_le lv : (level_size lv <= 1000000)%N.
Proof. do 5 (destruct lv as [|lv]; [unfold level_size; simpl; lia|]). by destruct lv. Qed.
Lemma level_size_ok lv : (lv < 5)%nat → (100 <= level_size lv <= 1000000)%N.
Proof. intros H. do 5 (destruct lv as [|lv]; [unfold level_size; simpl; lia|]). lia. Qed.

Lemma threshold_zero n step lv : (step < 2 ^ 64)%N →
  r_threshold n step lv 0 = B754_nan ∨ ∃ s, r_threshold n step lv 0 = B754_zero s.
Proof.
  intros Hs. unfold r_threshold. change (ld_of_Z (Z.of_N 0)) with (B754_zero false : ldouble).
  pose proof (level_size_le lv).
  destruct (zero_mult_l false (ld_of_Z (Z.of_N (level_size lv)))) as [s1 ->]; [apply ld_fin; lia|].
  destruct (zero_mult_l s1 (ld_of_Z (Z.of_N step))) as [s2 ->]; [apply ld_fin; lia|].
  destruct (zero_mult_r s2 (ld_of_double (tenths (level_factor lv)))) as [s3 ->];
    [apply tenths_fin, level_factor_ok|].
  apply zero_div.
Qed.

Lemma w_d_btw ind : btwd 0 1 (w_d ind).
Proof.
  unfold w_d. pose proof (N.mod_lt ind (2 ^ 64) ltac:(lia)) as Hi. revert Hi.
  generalize (ind mod 2 ^ 64)%N. clear ind. intros ind Hi.
  destruct (double_btw (2 ^ 64 - 1) (bpow radix2 63) 64 (lowb 63 ltac:(lia))) as [F B]; [lia| |].
  { change (bpow radix2 63) with (IZR (2 ^ 63)). change (bpow radix2 64) with (IZR (2 ^ 64)). split; apply IZR_le; lia. }
  destruct (double_btw (Z.of_N ind) 0 64 low0) as [F1 B1]; [lia| |].
  { change (bpow radix2 64) with (IZR (2 ^ 64)). split; apply IZR_le; lia. }
  assert (bpow radix2 64 = 2 * bpow radix2 63) as E64.
  { change (bpow radix2 64) with (IZR (2 ^ 64)). change (bpow radix2 63) with (IZR (2 ^ 63)).
    rewrite <- mult_IZR. done. }
  pose proof (bpow_gt_0 radix2 63) as P.
  set (D := double_of_Z (2 ^ 64 - 1)) in *. clearbody D.
  apply div_btw; [lia|exact F1|lra|apply low0|lia|]. split.
  - apply Rmult_le_pos; [lra|]. apply Rlt_le, Rinv_0_lt_compat. lra.
  - change (bpow radix2 1) with 2. apply Rmult_le_reg_r with (B2R D); [lra|].
    unfold Rdiv. rewrite Rmult_assoc, Rinv_l by lra. lra.
Qed.

Lemma below_zero n step lv ind : (step < 2 ^ 64)%N → fl_below n step lv 0 ind = false.
Proof.
  intros Hs. unfold fl_below.
  destruct (promote_btw _ 0 1 low0 ltac:(lia) (w_d_btw ind)) as [F B].
  destruct (threshold_zero n step lv Hs) as [->|[s ->]].
  { destruct (ld_of_double (w_d ind)); done. }
  rewrite Bltb_correct by done. apply Rlt_bool_false. simpl. lra.
Qed.
