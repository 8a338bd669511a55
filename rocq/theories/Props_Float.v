(** Final theorems about the sizes computed in floating point (properties C67 and C68).
    The statements use the real numbers, hence the axioms of the standard library listed by
    [Print Assumptions]. *)
From stdpp Require Import prelude.
From Coq Require Import NArith ZArith Lia Reals Lra.
From Flocq Require Import Core.Core IEEE754.BinarySingleNaN.
From Verif Require Import Base FloatModel FloatProofs.
Local Open Scope R_scope.

(** The exact size before rounding up: (1 + epsilon/2) n. *)
Definition cuckoo_exact (n : N) (epsilon : R) : R := (1 + epsilon / 2) * IZR (Z.of_N n).

(** C67: for a finite nonnegative epsilon, and as many elements as a double can count, the
    conversion to size_t is defined, every element has a slot in each half of the table, and
    the size is the exact one up to the rounding. *)
Theorem C67_size : forall (n : N) (epsilon : double),
  is_finite epsilon = true -> 0 <= B2R epsilon -> (n <= 2 ^ 53)%N ->
  1 + B2R epsilon / 2 <= IZR (2 ^ 63) -> cuckoo_exact n (B2R epsilon) <= IZR (2 ^ 63) ->
  exists s, cuckoo_table_size n epsilon = Ok s /\ (n <= s)%N
    /\ cuckoo_exact n (B2R epsilon) * (1 - / IZR (2 ^ 51)) <= IZR (Z.of_N s)
    /\ IZR (Z.of_N s) <= cuckoo_exact n (B2R epsilon) * (1 + / IZR (2 ^ 51)) + 1.
Proof.
  unfold cuckoo_exact. intros n epsilon Hf He Hn H1 Hx.
  destruct (cuckoo_size_ok n epsilon) as (s & Hs & Hns & Hl & Hu); [done..| |].
  { destruct (Z.max_spec 1 (Z.of_N n)) as [[_ ->]|[_ ->]]; lra. }
  assert (4 * uu = / IZR (2 ^ 51)) as Hu4 by (rewrite uu_val; change (IZR (2 ^ 51)) with 2251799813685248; lra).
  exists s. rewrite <- Hu4. done.
Qed.
Print Assumptions C67_size.

(** ... so that the reduction modulo the size, cuckoo.cpp:31, is defined as soon as one
    element is declared. *)
Corollary C67_positive : forall (n : N) (epsilon : double) (s : N),
  is_finite epsilon = true -> 0 <= B2R epsilon -> (1 <= n <= 2 ^ 53)%N ->
  1 + B2R epsilon / 2 <= IZR (2 ^ 63) -> cuckoo_exact n (B2R epsilon) <= IZR (2 ^ 63) ->
  cuckoo_table_size n epsilon = Ok s -> s <> 0%N.
Proof.
  intros n epsilon s Hf He Hn H1 Hx Hs.
  destruct (C67_size n epsilon) as (s' & Hs' & Hns & _); [done..|lia|done|done|].
  rewrite Hs in Hs'. injection Hs' as ->. lia.
Qed.
Print Assumptions C67_positive.

(** Three tenths, the nearest double. *)
Definition d03 : double := ddiv (double_of_Z 3) (double_of_Z 10).

Lemma d03_bounds : is_finite d03 = true ∧ 0 <= B2R d03 <= 1.
Proof.
  destruct (double_of_Z_ok 3) as [F3 B3]; [lia|]. destruct (double_of_Z_ok 10) as [F10 B10]; [lia|].
  destruct (ddiv_ok (double_of_Z 3) (double_of_Z 10) 0) as [F B].
  - done.
  - rewrite B10. lra.
  - lia.
  - rewrite B3, B10. simpl. lra.
  - split; [done|]. unfold d03. rewrite B, B3, B10. split.
    + apply (rnd_ge_Z 0); [lia|lra].
    + apply (rnd_bpow_le 0); [lia|simpl; lra].
Qed.

Example C67_ex : exists s, cuckoo_table_size 1000 d03 = Ok s /\ (1000 <= s)%N.
Proof.
  destruct d03_bounds as [F B].
  assert (4000 <= IZR (2 ^ 63)) as Hp by (apply IZR_le; lia).
  destruct (C67_size 1000 d03 F) as (s & Hs & Hn & _); [lra|lia|lra| |exact (ex_intro _ s (conj Hs Hn))].
  unfold cuckoo_exact. change (IZR (Z.of_N 1000)) with 1000. lra.
Qed.
Example C67_ex_value : cuckoo_table_size 1000 d03 = Ok 1150%N.
Proof. by vm_compute. Qed.

(** C67, outside of these conditions.  Beyond 2^53 elements the conversion of n_elements
    rounds down, and the table can be smaller than the number of elements. *)
Theorem C67_large_refuted : exists n s,
  (n < 2 ^ 64)%N /\ cuckoo_table_size n (double_of_Z 0) = Ok s /\ (s < n)%N.
Proof. exists (2 ^ 53 + 1)%N, (2 ^ 53)%N. by vm_compute. Qed.
(** A size that does not fit in size_t: undefined conversion. *)
Theorem C67_overflow_refuted : exists n, (n < 2 ^ 64)%N /\ cuckoo_table_size n (double_of_Z 2) = UB.
Proof. exists (2 ^ 63)%N. by vm_compute. Qed.
(** No element declared, or epsilon = -2: size 0, and the first insertion computes a
    remainder modulo 0.  Nothing checks the parameters. *)
Theorem C67_zero_refuted : cuckoo_table_size 0 d03 = Ok 0%N
  /\ exists epsilon, is_finite epsilon = true /\ cuckoo_table_size 1000 epsilon = Ok 0%N.
Proof. split; [by vm_compute|]. exists (double_of_Z (-2)). by vm_compute. Qed.
(** ... and an epsilon that is not a number, or below -2, makes the conversion undefined. *)
Theorem C67_nan_refuted : cuckoo_table_size 1000 B754_nan = UB
  /\ exists epsilon, is_finite epsilon = true /\ cuckoo_table_size 1000 epsilon = UB.
Proof. split; [by vm_compute|]. exists (double_of_Z (-3)). by vm_compute. Qed.
Print Assumptions C67_large_refuted.
Print Assumptions C67_overflow_refuted.
Print Assumptions C67_zero_refuted.
Print Assumptions C67_nan_refuted.

(** C68: the pages of Tethys.  The number of pages is even, the two halves have the same
    size, each half has room for all the elements, and the size is the exact one up to the
    rounding. [nb] is the least number of buckets that holds the elements. *)
Definition least_buckets (n bucket nb : N) : Prop :=
  (n <= nb * bucket)%N /\ forall k, (n <= k * bucket)%N -> (nb <= k)%N.

Theorem C68_size : forall (n bucket nb : N) (epsilon : double),
  (0 < bucket)%N -> least_buckets n bucket nb ->
  is_finite epsilon = true -> 0 <= B2R epsilon -> (nb <= 2 ^ 53)%N ->
  1 + B2R epsilon <= IZR (2 ^ 62) -> (1 + B2R epsilon) * IZR (Z.of_N nb) <= IZR (2 ^ 62) ->
  exists half, tethys_graph_size n bucket epsilon = Ok (2 * half)%N
    /\ (n <= half * bucket)%N
    /\ (1 + B2R epsilon) * IZR (Z.of_N nb) * (1 - / IZR (2 ^ 51)) <= IZR (Z.of_N half)
    /\ IZR (Z.of_N half) <= (1 + B2R epsilon) * IZR (Z.of_N nb) * (1 + / IZR (2 ^ 51)) + 1.
Proof.
  intros n bucket nb epsilon Hb [Hnb Hmin] Hf He Hn H1 Hx.
  assert ((n / bucket + (if n mod bucket =? 0 then 0 else 1))%N = nb) as Enb.
  { pose proof (N.div_mod n bucket ltac:(lia)) as Hd.
    pose proof (N.mod_lt n bucket ltac:(lia)) as Hm.
    assert (nb <= n / bucket + (if n mod bucket =? 0 then 0 else 1))%N as Hle.
    { apply Hmin. destruct (N.eqb_spec (n mod bucket) 0); nia. }
    assert (n / bucket + (if n mod bucket =? 0 then 0 else 1) <= nb)%N; [|lia].
    destruct (N.eqb_spec (n mod bucket) 0).
    - assert (n / bucket <= nb)%N; [|lia]. apply N.div_le_upper_bound; lia.
    - assert (n / bucket < nb)%N; [|lia]. apply N.div_lt_upper_bound; [lia|].
      destruct (decide (n = bucket * nb)%N) as [->|]; [|lia].
      exfalso. rewrite (N.mul_comm bucket nb), N.mod_mul in *; lia. }
  destruct (tethys_size_ok (Z.of_N nb) epsilon) as (k & Hs & Hnk & Hl & Hu); [done..|lia| |].
  { destruct (Z.max_spec 1 (Z.of_N nb)) as [[_ ->]|[_ ->]]; lra. }
  assert (4 * uu = / IZR (2 ^ 51)) as Hu4 by (rewrite uu_val; change (IZR (2 ^ 51)) with 2251799813685248; lra).
  exists k. rewrite <- Hu4. split; [|split; [|done]].
  - unfold tethys_graph_size. rewrite (proj2 (N.eqb_neq bucket 0)) by lia. cbn zeta.
    rewrite Enb. done.
  - assert (nb <= k)%N by lia. nia.
Qed.
Print Assumptions C68_size.

Example C68_ex : exists half, tethys_graph_size 1000 7 d03 = Ok (2 * half)%N /\ (1000 <= half * 7)%N.
Proof.
  destruct d03_bounds as [F B].
  assert (4000 <= IZR (2 ^ 62)) as Hp by (apply IZR_le; lia).
  destruct (C68_size 1000 7 143 d03) as (s & Hs & Hn & _);
    [lia| |exact F|lra|lia|lra| |exact (ex_intro _ s (conj Hs Hn))].
  - split; [lia|]. intros k Hk. lia.
  - change (IZR (Z.of_N 143)) with 143. lra.
Qed.
Example C68_ex_value : tethys_graph_size 1000 7 d03 = Ok 372%N.
Proof. by vm_compute. Qed.

(** C68, outside of these conditions: with no element, or with epsilon = -1, there is no
    page, and the reductions of tethys_store_builder.hpp:133-134 are modulo 0; with too many
    elements the pages cannot hold them. *)
Theorem C68_zero_refuted : tethys_graph_size 0 7 d03 = Ok 0%N
  /\ exists epsilon, is_finite epsilon = true /\ tethys_graph_size 1000 7 epsilon = Ok 0%N.
Proof. split; [by vm_compute|]. exists (double_of_Z (-1)). by vm_compute. Qed.
Theorem C68_large_refuted : exists n s,
  (n < 2 ^ 64)%N /\ tethys_graph_size n 1 (double_of_Z 0) = Ok s /\ (s / 2 * 1 < n)%N.
Proof. exists (2 ^ 53 + 1)%N, (2 ^ 54)%N. by vm_compute. Qed.
Theorem C68_overflow_refuted : exists n, (n < 2 ^ 64)%N /\ tethys_graph_size n 1 (double_of_Z 0) = UB.
Proof. exists (2 ^ 63)%N. by vm_compute. Qed.
Print Assumptions C68_zero_refuted.
Print Assumptions C68_large_refuted.
Print Assumptions C68_overflow_refuted.
