(** Model of the floating-point computations of the random database generator,
    lib/utils/db_generator.cpp:45-53, 113-155, 169 and the comparisons with the thresholds.
    [long double] is the 80-bit format of x86: 64 bits of precision.  The definitions of this
    file instantiate the parameters of DbGenModel.v. *)
From stdpp Require Import prelude.
From Coq Require Import NArith ZArith Lia.
From Flocq Require Import Core.Core IEEE754.BinarySingleNaN.
From Verif Require Import Base FloatModel DbGenModel.

(** long double, db_generator.cpp:51-52, 141-155. *)
Definition ldouble : Type := binary_float 64 16384.
(** Side conditions on the format of db_generator.cpp:51-52, 141-155. *)
Global Instance ld_prec : Prec_gt_0 64.
Proof. done. Defined.
(** Side conditions on the format of db_generator.cpp:51-52, 141-155. *)
Global Instance ld_emax : Prec_lt_emax 64 16384.
Proof. done. Defined.

(** Conversion of an unsigned integer to long double: static_cast<long double> at
    db_generator.cpp:51-52, 142-143, conversions of size_group_x and step at 142. *)
Definition ld_of_Z (z : Z) : ldouble := binary_normalize 64 16384 _ _ mode_NE z 0 false.
(** Promotion of a double to long double: fraction at db_generator.cpp:51, 1.2 at 52, 1.4 at
    142, w_d at 276. *)
Definition ld_of_double (x : double) : ldouble :=
  match x with
  | B754_zero s => B754_zero s
  | B754_infinity s => B754_infinity s
  | B754_nan => B754_nan
  | B754_finite s m e _ => binary_normalize 64 16384 _ _ mode_NE (SpecFloat.cond_Zopp s (Zpos m)) e s
  end.
(** Operations on long doubles, db_generator.cpp:51-52, 142-143. *)
Definition ldmult (x y : ldouble) : ldouble := Bmult mode_NE x y.
(** Division, db_generator.cpp:52, 143. *)
Definition lddiv (x y : ldouble) : ldouble := Bdiv mode_NE x y.
(** floorl, db_generator.cpp:51. *)
Definition ldfloor (x : ldouble) : ldouble := Bnearbyint mode_DN x.
(** Conversion to uint64_t, db_generator.cpp:50. *)
Definition u64_of_ld (x : ldouble) : res N :=
  if is_finite x then
    let z := Btrunc x in
    if ((0 <=? z) && (z <? 2 ^ 64))%Z then Ok (Z.to_N z) else UB
  else UB.

(** The constant [t]/10 as the nearest double: 0.9 and 1.0 at db_generator.cpp:119-127, 1.2 at
    52 and 145-154, 1.4 at 142. *)
Definition tenths (t : N) : double := ddiv (double_of_Z (Z.of_N t)) (double_of_Z 10).

(** optimal_num_group, db_generator.cpp:45-53. *)
Definition optimal_num_group (fraction : double) (n_entries step group_size : N) : res N :=
  u64_of_ld (ldfloor (lddiv (ldmult (ld_of_double fraction) (ld_of_Z (Z.of_N n_entries)))
    (ldmult (ld_of_double (tenths 12)) (ld_of_Z (Z.of_N ((step * group_size) mod 2 ^ 64)))))).
(** n_groups_2 to n_groups_6, db_generator.cpp:118-127. *)
Definition fl_groups (n step : N) (lv : nat) : res N :=
  optimal_num_group (tenths (level_tenths lv)) n step (level_size lv).

(** r_threshold_2 to r_threshold_6, db_generator.cpp:141-155. *)
Definition r_threshold (n step : N) (lv : nat) (n_groups : N) : ldouble :=
  lddiv (ldmult (ld_of_double (tenths (level_factor lv)))
           (ldmult (ldmult (ld_of_Z (Z.of_N n_groups)) (ld_of_Z (Z.of_N (level_size lv)))) (ld_of_Z (Z.of_N step))))
        (ld_of_Z (Z.of_N n)).
(** w_d, db_generator.cpp:169; ind is a size_t. *)
Definition w_d (ind : N) : double := ddiv (double_of_Z (Z.of_N (ind mod 2 ^ 64))) (double_of_Z (2 ^ 64 - 1)).
(** w_d < r_threshold, db_generator.cpp:276, 299, 321, 344, 368. *)
Definition fl_below (n step : N) (lv : nat) (n_groups ind : N) : bool :=
  Bltb (ld_of_double (w_d ind)) (r_threshold n step lv n_groups).

(** gen_db, db_generator.cpp:519-548, with these computations: the five numbers of groups are
    computed first in each thread, from the same values (118-127), hence not at all without
    threads. *)
Definition gen_db_fl (n n_threads : N) (streams : N -> N -> N) : res (list (kwd * N) * N * N) :=
  if (n_threads =? 0)%N then gen_db (fun _ => 0%N) (fun _ _ => false) n 0 streams else
  g2 <~ fl_groups n n_threads 0;
  g3 <~ fl_groups n n_threads 1;
  g4 <~ fl_groups n n_threads 2;
  g5 <~ fl_groups n n_threads 3;
  g6 <~ fl_groups n n_threads 4;
  let groups := fun lv => nth lv [g2; g3; g4; g5; g6] 0%N in
  gen_db groups (fun lv ind => fl_below n n_threads lv (groups lv) ind) n n_threads streams.
