(** Accuracy of the floating-point computations of the random database generator: relative
    errors of the products and quotients. *)
From stdpp Require Import prelude.
From Coq Require Import NArith ZArith Lia Reals Lra.
From Flocq Require Import Core.Core IEEE754.BinarySingleNaN.
From Flocq Require Relative.
From Verif Require Import Base FloatModel FloatProofs DbGenModel GenFloatModel GenFloatProofs.
Local Open Scope R_scope.
Local Arguments Z.pow : simpl never.
Local Arguments N.pow : simpl never.
Local Arguments Z.of_N : simpl never.
Local Arguments IZR : simpl never.

(** the unit roundoff of a double *)
Definition u : R := / 9007199254740992.
Definition lo (k : nat) : R := (1 - u) ^ k.
Definition hi (k : nat) : R := (1 + u) ^ k.

Lemma u_pos : 0 < u < / 1000.
Proof. unfold u. lra. Qed.
Lemma lo_pos k : 0 < lo k.
Proof. apply pow_lt. pose proof u_pos. lra. Qed.
Lemma hi_pos k : 0 < hi k.
Proof. apply pow_lt. pose proof u_pos. lra. Qed.
Lemma lo_add k j : lo (k + j) = lo k * lo j.
Proof. apply pow_add. Qed.
Lemma hi_add k j : hi (k + j) = hi k * hi j.
Proof. apply pow_add. Qed.
Lemma lo_le1 k : lo k <= 1.
Proof. induction k as [|k IH]; [simpl; unfold lo; simpl; lra|]. change (lo (S k)) with ((1 - u) * lo k). pose proof u_pos. pose proof (lo_pos k). nra. Qed.
Lemma hi_ge1 k : 1 <= hi k.
Proof. induction k as [|k IH]; [simpl; unfold hi; simpl; lra|]. change (hi (S k)) with ((1 + u) * hi k). pose proof u_pos. nra. Qed.
Lemma lo_mono k j : (k <= j)%nat → lo j <= lo k.
Proof. intros H. replace j with (k + (j - k))%nat by lia. rewrite lo_add. pose proof (lo_le1 (j - k)). pose proof (lo_pos k). nra. Qed.
Lemma hi_mono k j : (k <= j)%nat → hi k <= hi j.
Proof. intros H. replace j with (k + (j - k))%nat by lia. rewrite hi_add. pose proof (hi_ge1 (j - k)). pose proof (hi_pos k). nra. Qed.
Lemma lo_inv j : / lo j <= hi (2 * j).
Proof.
  induction j as [|j IH]; [unfold lo, hi; simpl; lra|].
  replace (2 * S j)%nat with (2 + 2 * j)%nat by lia. rewrite hi_add. change (lo (S j)) with ((1 - u) * lo j).
  pose proof u_pos. pose proof (lo_pos j). rewrite Rinv_mult.
  assert (/ (1 - u) <= hi 2) as H2.
  { apply Rmult_le_reg_r with (1 - u); [lra|]. rewrite Rinv_l by lra. unfold hi. simpl. nra. }
  assert (0 < / (1 - u)) by (apply Rinv_0_lt_compat; lra). assert (0 < / lo j) by (by apply Rinv_0_lt_compat).
  apply Rmult_le_compat; lra.
Qed.
Lemma hi_inv j : lo j <= / hi j.
Proof.
  induction j as [|j IH]; [unfold lo, hi; simpl; lra|].
  change (lo (S j)) with ((1 - u) * lo j). change (hi (S j)) with ((1 + u) * hi j).
  pose proof u_pos. pose proof (lo_pos j). pose proof (hi_pos j). rewrite Rinv_mult.
  assert (1 - u <= / (1 + u)).
  { apply Rmult_le_reg_r with (1 + u); [lra|]. rewrite Rinv_l by lra. nra. }
  apply Rmult_le_compat; lra.
Qed.

(** [x] is [y] up to [k] roundings *)
Definition acc (k : nat) (x y : R) : Prop := y * lo k <= x <= y * hi k.
Lemma acc_refl y : 0 <= y → acc 0 y y.
Proof. unfold acc, lo, hi. simpl. lra. Qed.
Lemma acc_mono k j x y : 0 <= y → (k <= j)%nat → acc k x y → acc j x y.
Proof. intros Hy H [H1 H2]. pose proof (lo_mono _ _ H). pose proof (hi_mono _ _ H). split; nra. Qed.
Lemma acc_mult k j x x' y y' : 0 < y → 0 < y' → acc k x y → acc j x' y' → acc (k + j) (x * x') (y * y').
Proof.
  intros Hy Hy' [H1 H2] [H3 H4]. pose proof (lo_pos k). pose proof (lo_pos j).
  unfold acc. rewrite lo_add, hi_add. split.
  - replace (y * y' * (lo k * lo j)) with ((y * lo k) * (y' * lo j)) by ring. apply Rmult_le_compat; nra.
  - replace (y * y' * (hi k * hi j)) with ((y * hi k) * (y' * hi j)) by ring. apply Rmult_le_compat; nra.
Qed.
Lemma acc_pos k x y : 0 < y → acc k x y → 0 < x.
Proof. intros Hy [H _]. pose proof (lo_pos k). nra. Qed.
Lemma acc_div k j x x' y y' : 0 < y → 0 < y' → acc k x y → acc j x' y' → acc (k + 2 * j) (x / x') (y / y').
Proof.
  intros Hy Hy' Hx Hx'. pose proof (acc_pos _ _ _ Hy Hx) as Px. pose proof (acc_pos _ _ _ Hy' Hx') as Px'.
  destruct Hx as [H1 H2], Hx' as [H3 H4]. pose proof (lo_pos k). pose proof (lo_pos j). pose proof (hi_pos j). pose proof (hi_pos k).
  unfold acc, Rdiv. assert (0 < / x') by (by apply Rinv_0_lt_compat). assert (0 < / y') by (by apply Rinv_0_lt_compat).
  assert (/ y' * lo j <= / x') as HL.
  { eapply Rle_trans; [apply Rmult_le_compat_l; [lra|apply hi_inv]|]. rewrite <- Rinv_mult. apply Rinv_le_contravar; lra. }
  assert (/ x' <= / y' * hi (2 * j)) as HH.
  { eapply Rle_trans; [|apply Rmult_le_compat_l; [lra|apply lo_inv]]. rewrite <- Rinv_mult. apply Rinv_le_contravar; [|lra]. nra. }
  rewrite hi_add. split.
  - apply Rle_trans with ((y * lo k) * (/ y' * lo j)).
    + replace (y * / y' * lo (k + 2 * j)) with ((y * / y' * lo k) * lo (2 * j)) by (rewrite lo_add; ring).
      replace (y * lo k * (/ y' * lo j)) with ((y * / y' * lo k) * lo j) by ring.
      apply Rmult_le_compat_l; [apply Rmult_le_pos; [apply Rmult_le_pos; lra|lra]|apply lo_mono; lia].
    + apply Rmult_le_compat; nra.
  - replace (y * / y' * (hi k * hi (2 * j))) with ((y * hi k) * (/ y' * hi (2 * j))) by ring. apply Rmult_le_compat; lra.
Qed.

(** numbers far from overflow and underflow *)
Definition mid (x : R) : Prop := bpow radix2 (-300) <= x <= bpow radix2 300.
Definition wide (x : R) : Prop := bpow radix2 (-301) <= x <= bpow radix2 301.
Lemma bp301 : bpow radix2 301 = 2 * bpow radix2 300.
Proof. change 301%Z with (1 + 300)%Z. by rewrite bpow_plus. Qed.
Lemma bm301 : bpow radix2 (-300) = 2 * bpow radix2 (-301).
Proof. change (-300)%Z with (1 + -301)%Z. by rewrite bpow_plus. Qed.
Lemma lo_half k : (k <= 100)%nat → / 2 <= lo k.
Proof.
  intros H. apply Rle_trans with (lo 100); [|by apply lo_mono].
  assert (forall j, 1 - INR j * u <= lo j) as Hb.
  { induction j as [|j IH]; [unfold lo; simpl; lra|]. change (lo (S j)) with ((1 - u) * lo j). rewrite S_INR.
    pose proof u_pos. pose proof (lo_pos j). pose proof (pos_INR j). pose proof (lo_le1 j). nra. }
  specialize (Hb 100%nat). rewrite INR_IZR_INZ in Hb. change (IZR (Z.of_nat 100)) with 100 in Hb. unfold u in Hb at 1. lra.
Qed.
Lemma hi_double k : (k <= 50)%nat → hi k <= 2.
Proof.
  intros H. pose proof (lo_half (k + k) ltac:(lia)) as Hl. pose proof (hi_inv k). pose proof (hi_pos k).
  assert (/ 2 <= / hi k) as Hq.
  { eapply Rle_trans; [exact Hl|]. eapply Rle_trans; [apply (lo_mono k); lia|done]. }
  apply Rmult_le_reg_r with (/ hi k); [by apply Rinv_0_lt_compat|]. rewrite Rinv_r by lra. lra.
Qed.
Lemma mid_wide k x y : (k <= 50)%nat → mid y → acc k x y → wide x.
Proof.
  intros Hk [M1 M2] [A1 A2]. pose proof (lo_half k ltac:(lia)). pose proof (hi_double k Hk). pose proof (lo_pos k). pose proof (hi_pos k).
  unfold wide. rewrite bp301. rewrite bm301 in M1. pose proof (bpow_gt_0 radix2 (-301)). split; nra.
Qed.

Section fmt.
  Context (prec emax : Z) (Hp : Prec_gt_0 prec) (He : Prec_lt_emax prec emax).
  Context (Hmin : (3 - emax + -1 <= -301)%Z) (Hmax : (302 < emax)%Z) (H53 : (53 <= prec)%Z).
  Notation fexpf := (SpecFloat.fexp prec emax).
  Notation rndf := (rndf prec emax).

  Lemma rnd_acc x : wide x → acc 1 (rndf x) x ∧ Rlt_bool (Rabs (rndf x)) (bpow radix2 emax) = true.
  Proof using Hp Hmin Hmax H53.
    intros [W1 W2]. pose proof (bpow_gt_0 radix2 (-301)) as Pl.
    destruct (Relative.relative_error_N_FLT_ex radix2 (3 - emax - prec) prec Hp (fun x => negb (Z.even x)) x) as (eps & Heps & Er).
    { rewrite Rabs_pos_eq by lra. eapply Rle_trans; [|exact W1]. apply bpow_le. lia. }
    change (round radix2 (FLT_exp (3 - emax - prec) prec) (Znearest (fun x => negb (Z.even x))) x) with (rndf x) in Er.
    assert (/ 2 * bpow radix2 (- prec + 1) <= u) as Hu.
    { apply Rle_trans with (/ 2 * bpow radix2 (- 52)); [|unfold u; simpl; lra].
      apply Rmult_le_compat_l; [lra|]. apply bpow_le. lia. }
    assert (- u <= eps <= u) as [E1 E2] by (apply Rabs_le_inv; lra).
    rewrite Er. assert (acc 1 (x * (1 + eps)) x) as A.
    { unfold acc, lo, hi. rewrite !pow_1. split; apply Rmult_le_compat_l; lra. }
    split; [done|]. apply Rlt_bool_true. destruct A as [A1 A2]. pose proof (hi_double 1 ltac:(lia)). pose proof (lo_pos 1).
    rewrite Rabs_pos_eq by nra. apply Rle_lt_trans with (2 * bpow radix2 301); [nra|].
    replace (2 * bpow radix2 301) with (bpow radix2 302) by (change 302%Z with (1 + 301)%Z; rewrite bpow_plus; done).
    apply bpow_lt. lia.
  Qed.

  (** a float that is [y] up to [k] roundings *)
  Definition facc (k : nat) (x : binary_float prec emax) (y : R) : Prop := is_finite x = true ∧ acc k (B2R x) y.

  Lemma mid_pos y : mid y → 0 < y.
  Proof using. intros [H _]. pose proof (bpow_gt_0 radix2 (-300)). lra. Qed.
  Lemma rnd_facc k x y : (k <= 50)%nat → mid y → acc k x y →
    acc (S k) (rndf x) y ∧ Rlt_bool (Rabs (rndf x)) (bpow radix2 emax) = true.
  Proof using Hp Hmin Hmax H53.
    intros Hk Hm Ha. pose proof (mid_pos y Hm) as Py. destruct (rnd_acc x (mid_wide k x y Hk Hm Ha)) as [[R1 R2] B]. split; [|done].
    destruct Ha as [A1 A2]. pose proof (lo_pos 1). pose proof (hi_pos 1). pose proof (lo_pos k). replace (S k) with (k + 1)%nat by lia.
    unfold acc. rewrite lo_add, hi_add. split.
    - eapply Rle_trans; [|exact R1]. rewrite <- Rmult_assoc. by apply Rmult_le_compat_r; [lra|].
    - eapply Rle_trans; [exact R2|]. rewrite <- Rmult_assoc. by apply Rmult_le_compat_r; [lra|].
  Qed.
  Lemma norm_facc z e s k y : (k <= 50)%nat → mid y → acc k (F2R (Float radix2 z e)) y →
    facc (S k) (binary_normalize prec emax Hp He mode_NE z e s) y.
  Proof using Hmin Hmax H53.
    intros Hk Hm Ha. pose proof (binary_normalize_correct prec emax Hp He mode_NE z e s) as HB.
    cbn zeta in HB. change (round_mode mode_NE) with ZnearestE in HB.
    destruct (rnd_facc k _ y Hk Hm Ha) as [Hr Hb]. unfold GenFloatProofs.rndf in *. rewrite Hb in HB.
    destruct HB as (HB & HF & _). split; [done|]. by rewrite HB.
  Qed.
  Lemma mult_facc x x' k j y y' : facc k x y → facc j x' y' → (k + j <= 50)%nat → 0 < y → 0 < y' → mid (y * y') →
    facc (S (k + j)) (@Bmult prec emax Hp He mode_NE x x') (y * y').
  Proof using Hmin Hmax H53.
    intros [Fx Ax] [Fx' Ax'] Hk Hy Hy' Hm. pose proof (Bmult_correct prec emax Hp He mode_NE x x') as HB.
    change (round_mode mode_NE) with ZnearestE in HB.
    destruct (rnd_facc (k + j) _ _ Hk Hm (acc_mult _ _ _ _ _ _ Hy Hy' Ax Ax')) as [Hr Hb].
    unfold GenFloatProofs.rndf in *. rewrite Hb in HB.
    destruct HB as (HB & HF & _). rewrite Fx, Fx' in HF. split; [done|]. by rewrite HB.
  Qed.
  Lemma div_facc x x' k j y y' : facc k x y → facc j x' y' → (k + 2 * j <= 50)%nat → 0 < y → 0 < y' → mid (y / y') →
    facc (S (k + 2 * j)) (@Bdiv prec emax Hp He mode_NE x x') (y / y').
  Proof using Hmin Hmax H53.
    intros [Fx Ax] [Fx' Ax'] Hk Hy Hy' Hm.
    assert (B2R x' ≠ 0) as Hne by (pose proof (acc_pos _ _ _ Hy' Ax'); lra).
    pose proof (Bdiv_correct prec emax Hp He mode_NE x x' Hne) as HB.
    change (round_mode mode_NE) with ZnearestE in HB.
    destruct (rnd_facc (k + 2 * j) _ _ Hk Hm (acc_div _ _ _ _ _ _ Hy Hy' Ax Ax')) as [Hr Hb].
    unfold GenFloatProofs.rndf in *. rewrite Hb in HB.
    destruct HB as (HB & HF & _). rewrite Fx in HF. split; [done|]. by rewrite HB.
  Qed.
End fmt.

Notation facc_d := (facc 53 1024).
Notation facc_l := (facc 64 16384).

(** a criterion for [mid] *)
Lemma mid_intro y : / 2 ^ 300 <= y <= 2 ^ 300 → mid y.
Proof.
  intros H. unfold mid. rewrite <- !(pow_powerRZ) || idtac.
  replace (bpow radix2 (-300)) with (/ 2 ^ 300).
  - replace (bpow radix2 300) with (2 ^ 300); [done|]. rewrite bpow_powerRZ. done.
  - rewrite bpow_powerRZ. done.
Qed.

(** orders of magnitude *)
Definition rng (a : nat) (y : R) : Prop := / 2 ^ a <= y <= 2 ^ a.
Lemma pow2_pos a : 0 < 2 ^ a.
Proof. apply pow_lt. lra. Qed.
Lemma rng_pos a y : rng a y → 0 < y.
Proof. intros [H _]. pose proof (Rinv_0_lt_compat _ (pow2_pos a)). lra. Qed.
Lemma rng_mono a b y : (a <= b)%nat → rng a y → rng b y.
Proof.
  intros H [H1 H2]. assert (2 ^ a <= 2 ^ b) as Hp by (apply Rle_pow; [lra|lia]). pose proof (pow2_pos a). split; [|lra].
  eapply Rle_trans; [|exact H1]. by apply Rinv_le_contravar.
Qed.
Lemma rng_mid a y : (a <= 300)%nat → rng a y → mid y.
Proof. intros H Hr. apply mid_intro. exact (rng_mono _ _ _ H Hr). Qed.
Lemma rng_mult a b y z : rng a y → rng b z → rng (a + b) (y * z).
Proof.
  intros Hy Hz. pose proof (rng_pos _ _ Hy). pose proof (rng_pos _ _ Hz). destruct Hy as [Y1 Y2], Hz as [Z1 Z2].
  pose proof (Rinv_0_lt_compat _ (pow2_pos a)). pose proof (Rinv_0_lt_compat _ (pow2_pos b)).
  unfold rng. rewrite pow_add, Rinv_mult. split; apply Rmult_le_compat; lra.
Qed.
Lemma rng_inv a y : rng a y → rng a (/ y).
Proof.
  intros Hy. pose proof (rng_pos _ _ Hy). destruct Hy as [Y1 Y2]. pose proof (pow2_pos a). split.
  - by apply Rinv_le_contravar.
  - rewrite <- (Rinv_inv (2 ^ a)). apply Rinv_le_contravar; [by apply Rinv_0_lt_compat|done].
Qed.
Lemma rng_div a b y z : rng a y → rng b z → rng (a + b) (y / z).
Proof. intros Hy Hz. apply rng_mult; [done|by apply rng_inv]. Qed.
Lemma rng_Z z : (1 <= z <= 2 ^ 64)%Z → rng 64 (IZR z).
Proof.
  intros [H1 H2]. split.
  - apply Rle_trans with 1; [|by apply (IZR_le 1)]. rewrite <- Rinv_1. apply Rinv_le_contravar; [lra|]. apply pow_R1_Rle. lra.
  - rewrite pow_IZR. by apply IZR_le.
Qed.

(** conversions *)
Lemma double_facc z : (1 <= z <= 2 ^ 64)%Z → facc_d 1 (double_of_Z z) (IZR z).
Proof.
  intros H. pose proof (rng_Z z H) as Hr. apply norm_facc; [lia|lia|lia|lia|by apply (rng_mid 64); [lia|]|].
  rewrite F2R_0e. apply acc_refl. pose proof (rng_pos _ _ Hr). lra.
Qed.
Lemma ld_facc z : (1 <= z <= 2 ^ 64)%Z → facc_l 1 (ld_of_Z z) (IZR z).
Proof.
  intros H. pose proof (rng_Z z H) as Hr. apply norm_facc; [lia|lia|lia|lia|by apply (rng_mid 64); [lia|]|].
  rewrite F2R_0e. apply acc_refl. pose proof (rng_pos _ _ Hr). lra.
Qed.
Lemma promote_facc (x : double) k y : (k <= 50)%nat → mid y → facc_d k x y → facc_l (S k) (ld_of_double x) y.
Proof.
  intros Hk Hm [F A]. destruct x as [s|s| |s m e Hb]; [|done|done|].
  - exfalso. pose proof (acc_pos _ _ _ (mid_pos _ Hm) A) as H. simpl in H. lra.
  - apply norm_facc; [lia|lia|lia|done|done|]. exact A.
Qed.
Lemma tenths_facc t : (1 <= t <= 20)%N → facc_l 5 (ld_of_double (tenths t)) (IZR (Z.of_N t) / 10).
Proof.
  intros Ht. assert (mid (IZR (Z.of_N t) / 10)) as Hm.
  { apply (rng_mid 128); [lia|]. apply (rng_div 64 64); apply rng_Z; lia. }
  apply promote_facc; [lia|done|]. apply (div_facc 53 1024 _ _ ltac:(lia) ltac:(lia) ltac:(lia) _ _ 1 1); [apply double_facc; lia..|lia| |lra|done].
  apply (rng_pos 64), rng_Z. lia.
Qed.

(** twenty-two roundings *)
Definition slack : R := / 281474976710656.
Lemma hi22 : hi 22 <= 1 + slack.
Proof. unfold hi, u, slack. simpl. lra. Qed.
Lemma lo22 : 1 - slack <= lo 22.
Proof. unfold lo, u, slack. simpl. lra. Qed.

Lemma u64_floor (q : ldouble) g : is_finite q = true → u64_of_ld (ldfloor q) = Ok g →
  IZR (Z.of_N g) <= B2R q < IZR (Z.of_N g) + 1.
Proof.
  intros F E. destruct (Bnearbyint_correct 64 16384 ld_emax mode_DN q) as (B8 & F8 & _).
  rewrite round_FIX_IZR in B8. change (Bnearbyint mode_DN q) with (ldfloor q) in *.
  change (round_mode mode_DN (B2R q)) with (Zfloor (B2R q)) in B8.
  assert (Btrunc (ldfloor q) = Zfloor (B2R q)) as Ht.
  { apply eq_IZR. rewrite (Btrunc_correct 64 16384 ld_emax), round_FIX_IZR, B8, Ztrunc_IZR. done. }
  unfold u64_of_ld in E. rewrite F8, F, Ht in E. cbn zeta in E.
  destruct ((0 <=? Zfloor (B2R q)) && (Zfloor (B2R q) <? 2 ^ 64))%Z eqn:Hz; [|done].
  apply andb_true_iff in Hz as [Hz _]. apply Z.leb_le in Hz. injection E as <-. rewrite Z2N.id by done.
  split; [apply Zfloor_lb|apply Zfloor_ub].
Qed.

Lemma rng_tenths t : (1 <= t <= 20)%N → rng 4 (IZR (Z.of_N t) / 10).
Proof.
  intros Ht. assert (1 <= IZR (Z.of_N t) <= 20) by (split; apply IZR_le; lia). unfold rng. simpl. lra.
Qed.

(** the number of groups is the one the formula gives, up to the rounding *)
Lemma optimal_acc t n step size g : (1 <= t <= 20)%N → (1 <= n < 2 ^ 64)%N → (1 <= step * size < 2 ^ 64)%N →
  optimal_num_group (tenths t) n step size = Ok g →
  12 * IZR (Z.of_N (step * size)) * IZR (Z.of_N g) <= IZR (Z.of_N t) * IZR (Z.of_N n) * (1 + slack) ∧
  IZR (Z.of_N t) * IZR (Z.of_N n) * (1 - slack) < 12 * IZR (Z.of_N (step * size)) * (IZR (Z.of_N g) + 1).
Proof.
  intros Ht Hn Hs. unfold optimal_num_group. rewrite N.mod_small by lia. intros E.
  set (m := (step * size)%N) in *.
  pose proof (rng_Z (Z.of_N n) ltac:(lia)) as Rn. pose proof (rng_Z (Z.of_N m) ltac:(lia)) as Rm.
  pose proof (rng_Z (Z.of_N t) ltac:(lia)) as Rt.
  pose proof (rng_tenths t Ht) as Rf. pose proof (rng_tenths 12 ltac:(lia)) as Rg. change (IZR (Z.of_N 12)) with 12 in Rg.
  assert (facc_l 7 (ldmult (ld_of_double (tenths t)) (ld_of_Z (Z.of_N n))) (IZR (Z.of_N t) / 10 * IZR (Z.of_N n))) as A1.
  { apply (mult_facc 64 16384 _ _ ltac:(lia) ltac:(lia) ltac:(lia) _ _ 5 1); [by apply tenths_facc|apply ld_facc; lia|lia|..].
    - by apply (rng_pos 4).
    - by apply (rng_pos 64).
    - apply (rng_mid 68); [lia|]. by apply (rng_mult 4 64). }
  assert (facc_l 7 (ldmult (ld_of_double (tenths 12)) (ld_of_Z (Z.of_N m))) (12 / 10 * IZR (Z.of_N m))) as A2.
  { apply (mult_facc 64 16384 _ _ ltac:(lia) ltac:(lia) ltac:(lia) _ _ 5 1); [by apply tenths_facc|apply ld_facc; lia|lia|..].
    - by apply (rng_pos 4).
    - by apply (rng_pos 64).
    - apply (rng_mid 68); [lia|]. by apply (rng_mult 4 64). }
  pose proof (rng_pos _ _ Rn) as Pn. pose proof (rng_pos _ _ Rm) as Pm. pose proof (rng_pos _ _ Rt) as Pt.
  set (T := IZR (Z.of_N t)) in *. set (n' := IZR (Z.of_N n)) in *. set (m' := IZR (Z.of_N m)) in *.
  assert (facc_l 22 (lddiv (ldmult (ld_of_double (tenths t)) (ld_of_Z (Z.of_N n)))
     (ldmult (ld_of_double (tenths 12)) (ld_of_Z (Z.of_N m)))) ((T / 10 * n') / (12 / 10 * m'))) as [F [L H]].
  { apply (div_facc 64 16384 _ _ ltac:(lia) ltac:(lia) ltac:(lia) _ _ 7 7); [done|done|lia|nra|nra|].
    apply (rng_mid (68 + 68)); [lia|]. apply rng_div; by apply (rng_mult 4 64). }
  change (Bdiv mode_NE) with lddiv in *.
  destruct (u64_floor _ _ F E) as [G1 G2]. clear E F.
  set (q := B2R (lddiv _ _)) in *. clearbody q. set (G := IZR (Z.of_N g)) in *.
  assert ((T / 10 * n') / (12 / 10 * m') = (T * n') / (12 * m')) as Eq by (field; lra). rewrite Eq in L, H. clear Eq.
  set (y := T * n' / (12 * m')) in *. assert (T * n' = y * (12 * m')) as -> by (unfold y; field; lra).
  assert (0 < y) as Py by (unfold y; apply Rdiv_lt_0_compat; nra). clearbody y.
  pose proof hi22. pose proof lo22. assert (0 <= slack <= / 1000) by (unfold slack; lra). split.
  - apply Rle_trans with (12 * m' * (y * hi 22)); [apply Rmult_le_compat_l; lra|].
    apply Rle_trans with (12 * m' * (y * (1 + slack))); [apply Rmult_le_compat_l; [lra|apply Rmult_le_compat_l; lra]|]. right. ring.
  - apply Rle_lt_trans with (12 * m' * (y * lo 22)); [|apply Rmult_lt_compat_l; lra].
    apply Rle_trans with (12 * m' * (y * (1 - slack))); [right; ring|]. apply Rmult_le_compat_l; [lra|apply Rmult_le_compat_l; lra].
Qed.

(** the threshold and the number drawn *)
Lemma w_d_facc ind : (1 <= ind < 2 ^ 64)%N → facc_l 5 (ld_of_double (w_d ind)) (IZR (Z.of_N ind) / IZR (2 ^ 64 - 1)).
Proof.
  intros Hi. unfold w_d. rewrite N.mod_small by lia.
  pose proof (rng_Z (Z.of_N ind) ltac:(lia)) as R1. pose proof (rng_Z (2 ^ 64 - 1) ltac:(lia)) as R2.
  assert (mid (IZR (Z.of_N ind) / IZR (2 ^ 64 - 1))) as Hm by (apply (rng_mid (64 + 64)); [lia|]; by apply rng_div).
  apply promote_facc; [lia|done|].
  apply (div_facc 53 1024 _ _ ltac:(lia) ltac:(lia) ltac:(lia) _ _ 1 1); [apply double_facc; lia..|lia| | |done].
  - by apply (rng_pos 64).
  - by apply (rng_pos 64).
Qed.
Lemma threshold_facc n step lv g : (1 <= n < 2 ^ 64)%N → (1 <= step < 2 ^ 64)%N → (1 <= g < 2 ^ 64)%N → (lv < 5)%nat →
  facc_l 14 (r_threshold n step lv g)
    (IZR (Z.of_N (level_factor lv)) / 10 * (IZR (Z.of_N g) * IZR (Z.of_N (level_size lv)) * IZR (Z.of_N step)) / IZR (Z.of_N n)).
Proof.
  intros Hn Hs Hg Hlv. pose proof (level_size_ok lv Hlv) as Hz. pose proof (level_factor_ok lv) as Hf.
  assert (1 <= level_factor lv)%N as Hf1 by (do 5 (destruct lv as [|lv]; [by vm_compute|]); lia).
  pose proof (rng_Z (Z.of_N n) ltac:(lia)) as R1. pose proof (rng_Z (Z.of_N step) ltac:(lia)) as R2.
  pose proof (rng_Z (Z.of_N g) ltac:(lia)) as R3. pose proof (rng_Z (Z.of_N (level_size lv)) ltac:(lia)) as R4.
  pose proof (rng_tenths (level_factor lv) ltac:(lia)) as R5.
  pose proof (rng_mult _ _ _ _ R3 R4) as R34. pose proof (rng_mult _ _ _ _ R34 R2) as R342.
  pose proof (rng_mult _ _ _ _ R5 R342) as R5342. pose proof (rng_div _ _ _ _ R5342 R1) as RR.
  unfold r_threshold.
  assert (facc_l 3 (ldmult (ld_of_Z (Z.of_N g)) (ld_of_Z (Z.of_N (level_size lv)))) (IZR (Z.of_N g) * IZR (Z.of_N (level_size lv)))) as A1.
  { apply (mult_facc 64 16384 _ _ ltac:(lia) ltac:(lia) ltac:(lia) _ _ 1 1); [apply ld_facc; lia|apply ld_facc; lia|lia|..].
    - exact (rng_pos _ _ R3).
    - exact (rng_pos _ _ R4).
    - apply (fun H => rng_mid _ _ H R34); clear; lia. }
  assert (facc_l 5 (ldmult (ldmult (ld_of_Z (Z.of_N g)) (ld_of_Z (Z.of_N (level_size lv)))) (ld_of_Z (Z.of_N step)))
    (IZR (Z.of_N g) * IZR (Z.of_N (level_size lv)) * IZR (Z.of_N step))) as A2.
  { apply (mult_facc 64 16384 _ _ ltac:(lia) ltac:(lia) ltac:(lia) _ _ 3 1); [done|apply ld_facc; lia|lia|..].
    - exact (rng_pos _ _ R34).
    - exact (rng_pos _ _ R2).
    - apply (fun H => rng_mid _ _ H R342); clear; lia. }
  apply (div_facc 64 16384 _ _ ltac:(lia) ltac:(lia) ltac:(lia) _ _ 11 1); [|apply ld_facc; lia|lia|..].
  - apply (mult_facc 64 16384 _ _ ltac:(lia) ltac:(lia) ltac:(lia) _ _ 5 5); [apply tenths_facc; lia|done|lia|..].
    + exact (rng_pos _ _ R5).
    + exact (rng_pos _ _ R342).
    + apply (fun H => rng_mid _ _ H R5342); clear; lia.
  - exact (rng_pos _ _ R5342).
  - exact (rng_pos _ _ R1).
  - apply (fun H => rng_mid _ _ H RR); clear; lia.
Qed.
Lemma hi5 : hi 5 < (1 + slack) * lo 14.
Proof. unfold hi, lo, u, slack. simpl. lra. Qed.
Lemma hi14 : hi 14 <= (1 + slack) * lo 5.
Proof. unfold hi, lo, u, slack. simpl. lra. Qed.

(** a number is below the threshold if it is in the proportion the formula gives, up to the
    rounding *)
Lemma below_acc n step lv g ind : (1 <= n < 2 ^ 64)%N → (1 <= step < 2 ^ 64)%N → (1 <= g < 2 ^ 64)%N → (lv < 5)%nat →
  (1 <= ind < 2 ^ 64)%N →
  let w := IZR (Z.of_N ind) / IZR (2 ^ 64 - 1) in
  let r := IZR (Z.of_N (level_factor lv)) / 10 * (IZR (Z.of_N g) * IZR (Z.of_N (level_size lv)) * IZR (Z.of_N step)) / IZR (Z.of_N n) in
  (w * (1 + slack) <= r → fl_below n step lv g ind = true) ∧ (r * (1 + slack) <= w → fl_below n step lv g ind = false).
Proof.
  intros Hn Hs Hg Hlv Hi w r. destruct (w_d_facc ind Hi) as [F1 [L1 H1]]. destruct (threshold_facc n step lv g Hn Hs Hg Hlv) as [F2 [L2 H2]].
  fold w in L1, H1. fold r in L2, H2. unfold fl_below. rewrite Bltb_correct by done.
  assert (0 < w) as Pw.
  { unfold w. apply Rdiv_lt_0_compat; [apply (rng_pos 64), rng_Z; lia|apply (IZR_lt 0); lia]. }
  pose proof hi5. pose proof hi14. pose proof (lo_pos 14). pose proof (lo_pos 5). assert (0 < slack) by (unfold slack; lra). split; intros Hc.
  - apply Rlt_bool_true. nra.
  - apply Rlt_bool_false. apply Rle_trans with (r * hi 14); [done|]. apply Rle_trans with (w * lo 5); [|done].
    assert (0 <= r \/ r < 0) as [Hr|Hr] by lra; [nra|]. pose proof (hi_pos 14). nra.
Qed.
