(** Rounding of the sizes computed in floating point. *)
From stdpp Require Import prelude.
From Coq Require Import NArith ZArith Lia Reals Lra.
From Flocq Require Import Core.Core IEEE754.BinarySingleNaN Relative Mult_error.
From Verif Require Import Base FloatModel.
Local Open Scope R_scope.

Local Arguments Z.pow : simpl never.
Local Arguments Z.mul : simpl never.

Notation fexp := (FLT_exp (-1074) 53).
Definition rnd (x : R) : R := round radix2 fexp ZnearestE x.
(** unit roundoff *)
Definition uu : R := bpow radix2 (-53).

Lemma uu_val : uu = / 9007199254740992.
Proof. unfold uu. simpl. lra. Qed.

Lemma rnd_le x y : x <= y → rnd x <= rnd y.
Proof. intros H. apply round_le; [typeclasses eauto..|done]. Qed.

Lemma format_Z z : (0 <= z <= 2 ^ 53)%Z → generic_format radix2 fexp (IZR z).
Proof.
  intros [H0 H1].
  destruct (decide (z = 2 ^ 53)%Z) as [->|Hne].
  - change (IZR (2 ^ 53)) with (bpow radix2 53).
    apply generic_format_FLT_bpow; [exact double_prec|lia].
  - apply generic_format_FLT. exists (Float radix2 z 0).
    + unfold F2R. simpl. lra.
    + simpl. rewrite Z.abs_eq by lia. change (radix2 ^ 53)%Z with (2 ^ 53)%Z. lia.
    + simpl. lia.
Qed.

Lemma rnd_Z z : (0 <= z <= 2 ^ 53)%Z → rnd (IZR z) = IZR z.
Proof. intros H. apply round_generic; [typeclasses eauto|]. by apply format_Z. Qed.

Lemma rnd_bpow_le k x : (-1074 <= k)%Z → x <= bpow radix2 k → rnd x <= bpow radix2 k.
Proof.
  intros Hk Hx. apply round_le_generic; [typeclasses eauto..| |done].
  apply generic_format_FLT_bpow; [exact double_prec|done].
Qed.

Lemma rnd_ge_Z z x : (0 <= z <= 2 ^ 53)%Z → IZR z <= x → IZR z <= rnd x.
Proof. intros Hz Hx. rewrite <- (rnd_Z z) by done. by apply rnd_le. Qed.

(** relative error of a value at least 1 *)
Lemma rnd_err x : 1 <= x → x * (1 - uu) <= rnd x <= x * (1 + uu).
Proof.
  intros Hx.
  destruct (relative_error_N_FLT_ex radix2 (-1074) 53 ltac:(lia) (λ z, negb (Z.even z)) x)
    as (e & He & Hr).
  { rewrite Rabs_pos_eq by lra. eapply Rle_trans; [|exact Hx]. change 1 with (bpow radix2 0).
    apply bpow_le. lia. }
  unfold rnd. rewrite Hr.
  assert (Rabs e <= uu) as Hu.
  { eapply Rle_trans; [exact He|]. unfold uu. simpl. lra. }
  apply Rabs_le_inv in Hu. split; apply Rmult_le_compat_l; lra.
Qed.

(** absolute error of a value between 0 and m, where m is at least 1 *)
Lemma rnd_abs x m : 0 <= x <= m → 1 <= m → x - m * uu <= rnd x <= x + m * uu.
Proof.
  intros Hx Hm. destruct (Rle_dec 1 x) as [H1|H1].
  - pose proof (rnd_err x H1) as [Hl Hu]. rewrite uu_val in *.
    split; nra.
  - pose proof (error_le_half_ulp radix2 fexp (λ z, negb (Z.even z)) x) as He.
    assert (ulp radix2 fexp x <= ulp radix2 fexp 1) as Hul.
    { apply ulp_le; [typeclasses eauto..|]. rewrite !Rabs_pos_eq by lra. lra. }
    assert (ulp radix2 fexp 1 = bpow radix2 (-52)) as Hone.
    { change 1 with (bpow radix2 0). rewrite ulp_bpow. f_equal. }
    rewrite Hone in Hul. apply Rabs_le_inv in He. fold (rnd x) in He.
    assert (bpow radix2 (-52) = 2 * uu) as Hb by (rewrite uu_val; simpl; lra).
    rewrite Hb in Hul. rewrite uu_val in *. lra.
Qed.

Lemma rnd_finite x k : (0 <= k < 1024)%Z → 0 <= x <= bpow radix2 k →
  Rlt_bool (Rabs (rnd x)) (bpow radix2 1024) = true.
Proof.
  intros Hk [H0 H1]. apply Rlt_bool_true.
  assert (0 <= rnd x).
  { rewrite <- (round_0 radix2 fexp ZnearestE). by apply rnd_le. }
  rewrite Rabs_pos_eq by done.
  apply Rle_lt_trans with (bpow radix2 k).
  - apply rnd_bpow_le; [lia|done].
  - apply bpow_lt. lia.
Qed.

(** ** the operations *)
Lemma double_of_Z_ok z : (0 <= z <= 2 ^ 53)%Z →
  is_finite (double_of_Z z) = true ∧ B2R (double_of_Z z) = IZR z.
Proof.
  intros Hz. unfold double_of_Z.
  pose proof (binary_normalize_correct 53 1024 double_prec double_emax mode_NE z 0 false) as H.
  cbn zeta in H.
  replace (F2R (Float radix2 z 0)) with (IZR z) in H by (unfold F2R; simpl; lra).
  change (round radix2 (SpecFloat.fexp 53 1024) (round_mode mode_NE) (IZR z))
    with (rnd (IZR z)) in H.
  rewrite (rnd_finite (IZR z) 53) in H; [|lia|].
  2:{ change (bpow radix2 53) with (IZR (2 ^ 53)). split; apply IZR_le; lia. }
  rewrite rnd_Z in H by done. by destruct H as (? & ? & _).
Qed.

Lemma dplus_ok x y k : is_finite x = true → is_finite y = true → (0 <= k < 1024)%Z →
  0 <= B2R x + B2R y <= bpow radix2 k →
  is_finite (dplus x y) = true ∧ B2R (dplus x y) = rnd (B2R x + B2R y).
Proof.
  intros Hx Hy Hk Hb. unfold dplus.
  pose proof (Bplus_correct 53 1024 double_prec double_emax mode_NE x y Hx Hy) as H.
  change (round radix2 (SpecFloat.fexp 53 1024) (round_mode mode_NE) (B2R x + B2R y))
    with (rnd (B2R x + B2R y)) in H.
  rewrite (rnd_finite _ k) in H by done. by destruct H as (? & ? & _).
Qed.

Lemma dmult_ok x y k : is_finite x = true → is_finite y = true → (0 <= k < 1024)%Z →
  0 <= B2R x * B2R y <= bpow radix2 k →
  is_finite (dmult x y) = true ∧ B2R (dmult x y) = rnd (B2R x * B2R y).
Proof.
  intros Hx Hy Hk Hb. unfold dmult.
  pose proof (Bmult_correct 53 1024 double_prec double_emax mode_NE x y) as H.
  change (round radix2 (SpecFloat.fexp 53 1024) (round_mode mode_NE) (B2R x * B2R y))
    with (rnd (B2R x * B2R y)) in H.
  rewrite (rnd_finite _ k) in H by done. destruct H as (? & H & _).
  rewrite Hx, Hy in H. done.
Qed.

Lemma ddiv_ok x y k : is_finite x = true → B2R y ≠ 0 → (0 <= k < 1024)%Z →
  0 <= B2R x / B2R y <= bpow radix2 k →
  is_finite (ddiv x y) = true ∧ B2R (ddiv x y) = rnd (B2R x / B2R y).
Proof.
  intros Hx Hy Hk Hb. unfold ddiv.
  pose proof (Bdiv_correct 53 1024 double_prec double_emax mode_NE x y Hy) as H.
  change (round radix2 (SpecFloat.fexp 53 1024) (round_mode mode_NE) (B2R x / B2R y))
    with (rnd (B2R x / B2R y)) in H.
  rewrite (rnd_finite _ k) in H by done. destruct H as (? & H & _).
  rewrite Hx in H. done.
Qed.

Lemma dceil_ok x : is_finite x = true →
  is_finite (dceil x) = true ∧ B2R (dceil x) = IZR (Zceil (B2R x)).
Proof.
  intros Hx. unfold dceil.
  destruct (Bnearbyint_correct 53 1024 double_emax mode_UP x) as (H1 & H2 & _).
  rewrite round_FIX_IZR in H1. rewrite H2. done.
Qed.

Lemma size_ok x z : is_finite x = true → B2R x = IZR z → (0 <= z < 2 ^ 64)%Z →
  size_of_double x = Ok (Z.to_N z).
Proof.
  intros Hx HB Hz. unfold size_of_double. rewrite Hx.
  assert (Btrunc x = z) as ->.
  { apply eq_IZR. rewrite (Btrunc_correct 53 1024 double_emax), round_FIX_IZR, HB, Ztrunc_IZR.
    done. }
  cbn zeta. by rewrite (proj2 (andb_true_iff _ _)) by (split; [apply Z.leb_le|apply Z.ltb_lt]; lia).
Qed.

(** ** ceil(c * n) *)
Lemma scale_ok (c : double) n x : is_finite c = true → 1 <= B2R c → (0 <= n <= 2 ^ 53)%Z →
  x * (1 - 5 / 2 * uu) <= B2R c <= x * (1 + 5 / 2 * uu) → 1 <= x → x * IZR (Z.max 1 n) <= IZR (2 ^ 63) →
  ∃ k, is_finite (dceil (dmult c (double_of_Z n))) = true
    ∧ B2R (dceil (dmult c (double_of_Z n))) = IZR k
    ∧ (n <= k)%Z
    ∧ x * IZR n * (1 - 4 * uu) <= IZR k <= x * IZR n * (1 + 4 * uu) + 1.
Proof.
  intros Hc H1 Hn Hcx Hx1 Hfit.
  destruct (double_of_Z_ok n Hn) as [Fn Bn].
  assert (0 <= IZR n) as Hn0 by (apply IZR_le; lia).
  assert (IZR n <= IZR (Z.max 1 n)) as Hmax by (apply IZR_le; lia).
  assert (x * IZR n <= IZR (2 ^ 63)) as Hxn by nra.
  assert (0 <= x * IZR n) as Hxn0 by nra.
  assert (B2R c * IZR n <= x * IZR n * (1 + 5 / 2 * uu)) as Hcn by nra.
  assert (x * IZR n * (1 - 5 / 2 * uu) <= B2R c * IZR n) as Hcn' by nra.
  assert (IZR (2 ^ 64) = 2 * IZR (2 ^ 63)) as H64 by (rewrite <- mult_IZR; done).
  assert (B2R c * IZR n <= IZR (2 ^ 64)) as Hb.
  { rewrite H64. rewrite uu_val in Hcn. nra. }
  destruct (dmult_ok c (double_of_Z n) 64) as [Fm Bm]; [done..|lia| |].
  { rewrite Bn. change (bpow radix2 64) with (IZR (2 ^ 64)). split; [nra|done]. }
  destruct (dceil_ok _ Fm) as [Fk Bk].
  exists (Zceil (B2R (dmult c (double_of_Z n)))). split; [done|]. split; [done|].
  rewrite Bm, Bn in *.
  assert (IZR n <= B2R c * IZR n) as Hge by nra.
  pose proof (rnd_ge_Z n _ Hn Hge) as Hr.
  pose proof (Zceil_ub (rnd (B2R c * IZR n))) as Hub.
  pose proof (Zceil_lb (rnd (B2R c * IZR n))) as Hlb.
  split.
  { apply le_IZR. lra. }
  destruct (decide (n = 0)%Z) as [->|Hnz].
  - assert (B2R c * IZR 0 = IZR 0) as E by lra.
    rewrite E, (rnd_Z 0) in * by lia. lra.
  - assert (1 <= IZR n) by (apply IZR_le; lia).
    destruct (rnd_err (B2R c * IZR n)) as [He1 He2]; [nra|].
    rewrite uu_val in *.
    set (X := x * IZR n) in *. set (Y := B2R c * IZR n) in *.
    split; nra.
Qed.

(** a double that holds a positive integer, doubled *)
Lemma rnd_double (d : double) k : B2R d = IZR k → (0 <= k)%Z → rnd (2 * IZR k) = IZR (2 * k).
Proof.
  intros Hd Hk. rewrite mult_IZR. apply round_generic; [typeclasses eauto|].
  destruct (decide (k = 0)%Z) as [->|Hnz].
  { rewrite Rmult_0_r. apply generic_format_0. }
  rewrite Rmult_comm. change 2 with (bpow radix2 1).
  rewrite <- Hd. apply mult_bpow_exact_FLT.
  - pose proof (generic_format_B2R 53 1024 d) as HG. exact HG.
  - assert (1 <= mag radix2 (B2R d))%Z; [|lia].
    apply mag_ge_bpow. rewrite Hd. change (bpow radix2 (1 - 1)) with 1.
    rewrite Rabs_pos_eq by (apply IZR_le; lia). apply IZR_le. lia.
Qed.

Lemma one_ok : is_finite (double_of_Z 1) = true ∧ B2R (double_of_Z 1) = 1.
Proof. apply (double_of_Z_ok 1). lia. Qed.
Lemma two_ok : is_finite (double_of_Z 2) = true ∧ B2R (double_of_Z 2) = 2.
Proof. apply (double_of_Z_ok 2). lia. Qed.

Lemma le_fits x n : 0 <= x → x * IZR (Z.max 1 n) <= IZR (2 ^ 63) → x <= IZR (2 ^ 63).
Proof.
  intros Hx H. assert (1 <= IZR (Z.max 1 n)) by (apply IZR_le; lia). nra.
Qed.

Lemma cuckoo_size_ok n (epsilon : double) :
  is_finite epsilon = true → 0 <= B2R epsilon → (n <= 2 ^ 53)%N →
  (1 + B2R epsilon / 2) * IZR (Z.max 1 (Z.of_N n)) <= IZR (2 ^ 63) →
  ∃ s, cuckoo_table_size n epsilon = Ok s ∧ (n <= s)%N
    ∧ (1 + B2R epsilon / 2) * IZR (Z.of_N n) * (1 - 4 * uu) <= IZR (Z.of_N s)
    ∧ IZR (Z.of_N s) <= (1 + B2R epsilon / 2) * IZR (Z.of_N n) * (1 + 4 * uu) + 1.
Proof.
  intros Fe He Hn Hfit. set (x := 1 + B2R epsilon / 2) in *.
  assert (1 <= x) as Hx1 by (unfold x; lra).
  pose proof (le_fits x (Z.of_N n) ltac:(lra) Hfit) as Hx.
  destruct one_ok as [F1 B1], two_ok as [F2 B2].
  destruct (ddiv_ok epsilon (double_of_Z 2) 63) as [Fy By]; [done| |lia| |].
  { rewrite B2. lra. }
  { rewrite B2. change (bpow radix2 63) with (IZR (2 ^ 63)). unfold x in Hx. lra. }
  rewrite B2 in By.
  destruct (rnd_abs (B2R epsilon / 2) x) as [Hy1 Hy2]; [unfold x in *; lra|done|].
  assert (0 <= rnd (B2R epsilon / 2)) as Hy0.
  { apply (rnd_ge_Z 0); [lia|lra]. }
  rewrite <- By in *. set (y := ddiv epsilon (double_of_Z 2)) in *.
  assert (x * (1 - uu) <= 1 + B2R y <= x * (1 + uu)) as Hxy by (unfold x in *; lra).
  destruct (dplus_ok (double_of_Z 1) y 64) as [Fc Bc]; [done..|lia| |].
  { rewrite B1. change (bpow radix2 64) with (IZR (2 ^ 64)).
    assert (IZR (2 ^ 64) = 2 * IZR (2 ^ 63)) as -> by (rewrite <- mult_IZR; done).
    rewrite uu_val in *. nra. }
  rewrite B1 in Bc.
  destruct (rnd_err (1 + B2R y)) as [Hc1 Hc2]; [lra|].
  assert (1 <= rnd (1 + B2R y)) as Hc0 by (apply (rnd_ge_Z 1); [lia|lra]).
  rewrite <- Bc in *.
  destruct (scale_ok (dplus (double_of_Z 1) y) (Z.of_N n) x) as (k & Fk & Bk & Hnk & Hk);
    [done|lra|lia| |done|done|].
  { rewrite uu_val in *. split; nra. }
  assert (0 <= k < 2 ^ 64)%Z as Hkb.
  { split; [lia|]. apply lt_IZR.
    assert (IZR (2 ^ 64) = 2 * IZR (2 ^ 63)) as -> by (rewrite <- mult_IZR; done).
    assert (IZR (Z.of_N n) <= IZR (Z.max 1 (Z.of_N n))) as Hm by (apply IZR_le; lia).
    assert (x * IZR (Z.of_N n) <= IZR (2 ^ 63)) as Hxn by nra.
    assert (IZR 4 <= IZR (2 ^ 63)) by (apply IZR_le; lia).
    rewrite uu_val in *. lra. }
  exists (Z.to_N k). split; [|split].
  - unfold cuckoo_table_size. by apply size_ok.
  - lia.
  - rewrite Z2N.id by lia. exact Hk.
Qed.

Lemma tethys_size_ok nb (epsilon : double) :
  is_finite epsilon = true → 0 <= B2R epsilon → (0 <= nb <= 2 ^ 53)%Z →
  (1 + B2R epsilon) * IZR (Z.max 1 nb) <= IZR (2 ^ 62) →
  ∃ k, size_of_double (dmult (double_of_Z 2)
         (dceil (dmult (dplus (double_of_Z 1) epsilon) (double_of_Z nb)))) = Ok (2 * k)%N
    ∧ (nb <= Z.of_N k)%Z
    ∧ (1 + B2R epsilon) * IZR nb * (1 - 4 * uu) <= IZR (Z.of_N k)
    ∧ IZR (Z.of_N k) <= (1 + B2R epsilon) * IZR nb * (1 + 4 * uu) + 1.
Proof.
  intros Fe He Hn Hfit. set (x := 1 + B2R epsilon) in *.
  assert (1 <= x) as Hx1 by (unfold x; lra).
  assert (IZR (2 ^ 63) = 2 * IZR (2 ^ 62)) as E63 by (rewrite <- mult_IZR; done).
  assert (IZR (2 ^ 64) = 2 * IZR (2 ^ 63)) as E64 by (rewrite <- mult_IZR; done).
  assert (IZR 4 <= IZR (2 ^ 62)) as H4 by (apply IZR_le; lia).
  assert (x * IZR (Z.max 1 nb) <= IZR (2 ^ 63)) as Hfit' by lra.
  pose proof (le_fits x nb ltac:(lra) Hfit') as Hx.
  destruct one_ok as [F1 B1], two_ok as [F2 B2].
  destruct (dplus_ok (double_of_Z 1) epsilon 64) as [Fc Bc]; [done..|lia| |].
  { rewrite B1. change (bpow radix2 64) with (IZR (2 ^ 64)). fold x. lra. }
  rewrite B1 in Bc. fold x in Bc.
  destruct (rnd_err x) as [Hc1 Hc2]; [lra|].
  assert (1 <= rnd x) as Hc0 by (apply (rnd_ge_Z 1); [lia|lra]).
  rewrite <- Bc in *.
  destruct (scale_ok (dplus (double_of_Z 1) epsilon) nb x) as (k & Fk & Bk & Hnk & Hk);
    [done|lra|lia| |done|done|].
  { rewrite uu_val in *. split; nra. }
  assert (IZR k <= IZR (2 ^ 63) - 1) as HkR.
  { assert (IZR nb <= IZR (Z.max 1 nb)) as Hm by (apply IZR_le; lia).
    assert (x * IZR nb <= IZR (2 ^ 62)) as Hxn by nra.
    rewrite uu_val in *. lra. }
  assert (0 <= k < 2 ^ 63)%Z as Hkb.
  { split; [lia|]. apply lt_IZR. lra. }
  set (d := dceil _) in *.
  assert (0 <= IZR k) as Hk0 by (apply IZR_le; lia).
  destruct (dmult_ok (double_of_Z 2) d 64) as [Fr Br]; [done..|lia| |].
  { rewrite B2, Bk. change (bpow radix2 64) with (IZR (2 ^ 64)). lra. }
  rewrite B2, Bk in Br. rewrite (rnd_double d k) in Br by (done || lia).
  exists (Z.to_N k). split; [|split].
  - rewrite (size_ok _ (2 * k)) by (done || lia). f_equal. lia.
  - lia.
  - rewrite Z2N.id by lia. exact Hk.
Qed.
