(** Model of the sizes computed in floating point.
    Sources: lib/include/sse/schemes/oceanus/details/cuckoo.hpp,
    lib/tethys/tethys_allocator.cpp. *)
From stdpp Require Import prelude.
From Coq Require Import NArith ZArith Lia.
From Flocq Require Import Core.Core IEEE754.BinarySingleNaN.
From Verif Require Import Base.

(** A C++ double: IEEE 754 binary64, as formalised by Flocq (cuckoo.hpp:15,
    tethys_allocator.cpp:11: parameter epsilon). *)
Definition double : Type := binary_float 53 1024.
(** Side conditions on the format used by the operations of cuckoo.hpp:17 and
    tethys_allocator.cpp:15. *)
Global Instance double_prec : Prec_gt_0 53.
Proof. done. Defined.
Global Instance double_emax : Prec_lt_emax 53 1024.
Proof. done. Defined.

(** Conversion of an integer to double (of n_elements in cuckoo.hpp:17, of n_buckets and of
    the constants in tethys_allocator.cpp:15): to the nearest, ties to even. *)
Definition double_of_Z (z : Z) : double := binary_normalize 53 1024 _ _ mode_NE z 0 false.
(** Conversion of a double to size_t (result of cuckoo.hpp:17 and
    tethys_allocator.cpp:15): truncation; undefined if the result does not fit in 64 bits or
    if there is none. *)
Definition size_of_double (x : double) : res N :=
  if is_finite x then
    let z := Btrunc x in
    if ((0 <=? z) && (z <? 2 ^ 64))%Z then Ok (Z.to_N z) else UB
  else UB.

(** Operations of cuckoo.hpp:17 and tethys_allocator.cpp:15, with the rounding mode of the
    program (to the nearest, ties to even). *)
Definition dplus (x y : double) : double := Bplus mode_NE x y.
Definition dmult (x y : double) : double := Bmult mode_NE x y.
Definition ddiv (x y : double) : double := Bdiv mode_NE x y.
(** std::ceil, cuckoo.hpp:17, tethys_allocator.cpp:15. *)
Definition dceil (x : double) : double := Bnearbyint mode_UP x.

(** cuckoo_table_size, details/cuckoo.hpp:15-18. *)
Definition cuckoo_table_size (n_elements : N) (epsilon : double) : res N :=
  size_of_double
    (dceil (dmult (dplus (double_of_Z 1) (ddiv epsilon (double_of_Z 2))) (double_of_Z (Z.of_N n_elements)))).

(** tethys_graph_size, tethys_allocator.cpp:11-16. *)
Definition tethys_graph_size (n_elements bucket_size : N) (epsilon : double) : res N :=
  if (bucket_size =? 0)%N then UB else
  let n_buckets := (n_elements / bucket_size + if n_elements mod bucket_size =? 0 then 0 else 1)%N in
  size_of_double
    (dmult (double_of_Z 2)
       (dceil (dmult (dplus (double_of_Z 1) epsilon) (double_of_Z (Z.of_N n_buckets))))).
