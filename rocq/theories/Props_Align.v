(** C127: alignment of the accesses of a vector. *)
From stdpp Require Import prelude.
From Coq Require Import ZArith NArith Lia.
From Verif Require Import Base EncModel AioLinuxModel AlignModel VecModel.
Local Open Scope N_scope.

Lemma aligned_pow2 x k : is_aligned x (2 ^ k) = true <-> (2 ^ k | x).
Proof.
  unfold is_aligned. rewrite N.eqb_eq. replace (2 ^ k - 1) with (N.ones k) by (rewrite N.ones_equiv; lia).
  rewrite N.land_ones. apply N.mod_divide. apply N.pow_nonzero. lia.
Qed.

(** Being a power of two. *)
Lemma land_pred_pow2 x : x <> 0 -> N.land x (x - 1) = 0 <-> exists j, x = 2 ^ j.
Proof.
  intros Hx. split.
  - intros Hl. exists (N.log2 x). destruct (N.log2_spec x) as [H1 H2]; [lia|].
    destruct (N.eq_dec x (2 ^ N.log2 x)) as [|Hne]; [done|]. exfalso.
    assert (Hb : N.testbit (N.land x (x - 1)) (N.log2 x) = true).
    { rewrite N.land_spec, N.bit_log2 by done.
      replace (N.log2 x) with (N.log2 (x - 1)); [apply N.bit_log2; lia|].
      rewrite N.pow_succ_r' in H2. apply (N.log2_unique' _ _ (x - 1 - 2 ^ N.log2 x)); lia. }
    rewrite Hl in Hb. by rewrite N.bits_0 in Hb.
  - intros [j ->]. replace (2 ^ j - 1) with (N.ones j) by (rewrite N.ones_equiv; lia).
    rewrite N.land_ones. apply N.mod_same, N.pow_nonzero. lia.
Qed.

Lemma memalign_valid al heap :
  (exists j, al = 2 ^ j /\ 3 <= j) -> memalign al heap = heap.
Proof.
  intros (j & -> & Hj). unfold memalign.
  assert (E : 2 ^ j = 2 ^ (j - 3) * 8) by (change 8 with (2 ^ 3); rewrite <- N.pow_add_r; f_equal; lia).
  assert (Hz : 2 ^ (j - 3) <> 0) by (apply N.pow_nonzero; lia).
  rewrite E, N.mod_mul, N.div_mul by lia.
  assert (E2 : N.land (2 ^ (j - 3)) (2 ^ (j - 3) - 1) = 0) by (apply land_pred_pow2; eauto).
  rewrite E2. destruct (N.eqb_spec (2 ^ (j - 3) * 8) 0); [lia|done].
Qed.
Lemma memalign_some al heap a :
  memalign al heap = Some a -> heap = Some a /\ exists j, al = 2 ^ j /\ 3 <= j.
Proof.
  unfold memalign. destruct (N.eqb_spec al 0) as [|Hz]; [done|].
  destruct (N.eqb_spec (al mod 8) 0) as [Hm|]; [|done].
  destruct (N.eqb_spec (N.land (al / 8) (al / 8 - 1)) 0) as [Hl|]; [|done]. cbn. intros ->. split; [done|].
  assert (Ha : al = 8 * (al / 8)) by (pose proof (N.div_mod al 8); lia).
  apply land_pred_pow2 in Hl as [j Hj]; [|lia]. exists (j + 3). split; [|lia].
  rewrite N.pow_add_r. change (2 ^ 3) with 8. lia.
Qed.

Lemma to_off_512 x : (512 | x) -> Z.rem (to_off x) 512 = 0%Z.
Proof.
  intros [y ->]. unfold to_off.
  assert (E : (y * 512) mod 2 ^ 64 = (y mod 2 ^ 55) * 512).
  { change (2 ^ 64) with (2 ^ 55 * 512). apply N.mul_mod_distr_r; done. }
  rewrite E. destruct (_ <? _).
  - rewrite N2Z.inj_mul. apply Z.rem_mul. done.
  - replace (Z.of_N (y mod 2 ^ 55 * 512) - 2 ^ 64)%Z with ((Z.of_N (y mod 2 ^ 55) - 2 ^ 55) * 512)%Z by lia.
    apply Z.rem_mul. done.
Qed.
Lemma to_off_small x : x < 2 ^ 63 -> to_off x = Z.of_N x.
Proof.
  intros Hx. unfold to_off. rewrite N.mod_small by lia. destruct (N.ltb_spec x (2 ^ 63)); [done|lia].
Qed.

Lemma check_spec k idx buf sz i :
  check_args (2 ^ k) (LReq idx buf sz (to_off (i * sz))) = 0%Z <-> (2 ^ k | buf) /\ (512 | sz).
Proof.
  unfold check_args. cbn [r_buf r_len r_off].
  destruct (is_aligned buf (2 ^ k)) eqn:Ea; cbn [negb].
  2:{ split; [done|]. intros [H _]. apply aligned_pow2 in H. congruence. }
  destruct (N.eqb_spec (sz mod 512) 0) as [Es|Es]; cbn [negb].
  2:{ split; [done|]. intros [_ H]. apply N.mod_divide in H; [done|done]. }
  apply N.mod_divide in Es; [|done].
  rewrite to_off_512 by (by apply N.divide_mul_r). cbn. split; [|done]. intros _. split; [by apply aligned_pow2|done].
Qed.

(** When an asynchronous access is submitted, and with which arguments: never at an address that
    is not a multiple of the page size, for a page size that is a power of two. *)
Theorem C127_submitted k al sz idx heap r :
  async_request al sz (2 ^ k) idx heap = Ok r <->
  (exists j, al = 2 ^ j /\ 3 <= j) /\ (512 | sz) /\
  exists a, heap = Some a /\ (2 ^ k | a) /\ r = LReq idx a sz (to_off (idx * sz)).
Proof.
  unfold async_request. split.
  - destruct (memalign al heap) as [a|] eqn:Em; [|done]. apply memalign_some in Em as [-> Hj].
    destruct (Z.eqb_spec (check_args (2 ^ k) (LReq idx a sz (to_off (idx * sz)))) 0) as [Hc|]; [|done].
    apply check_spec in Hc as [Ha Hs]. intros [= <-]. eauto 10.
  - intros (Hj & Hs & a & -> & Ha & ->). rewrite memalign_valid by done.
    destruct (Z.eqb_spec (check_args (2 ^ k) (LReq idx a sz (to_off (idx * sz)))) 0) as [|Hc]; [done|].
    destruct Hc. by apply check_spec.
Qed.

(** The offset of a request that is submitted is the one of the element, and a multiple of 512;
    below 2^63 nothing wraps. *)
Theorem C127_offset k al sz idx heap r :
  async_request al sz (2 ^ k) idx heap = Ok r ->
  (512 | r_off r)%Z /\ (idx * sz < 2 ^ 63 -> r_off r = Z.of_N (idx * sz)).
Proof.
  intros (_ & Hs & a & _ & _ & ->)%C127_submitted. cbn [r_off]. split; [|apply to_off_small].
  apply Z.rem_divide; [done|]. by apply to_off_512, N.divide_mul_r.
Qed.

(** The accesses of all the elements are submitted, wherever the allocator puts the buffers,
    exactly when the alignment is a power of two, at least that of the page and at least 8, and
    the size of the elements is a multiple of 512. *)
Theorem C127_always k al sz :
  al <> 0 ->
  (forall idx a, a <> 0 -> (al | a) -> exists r, async_request al sz (2 ^ k) idx (Some a) = Ok r) <->
  (exists j, al = 2 ^ j /\ 3 <= j /\ k <= j) /\ (512 | sz).
Proof.
  intros Hal. split.
  - intros H. destruct (H 0 al Hal (N.divide_refl al)) as [r Hr].
    apply C127_submitted in Hr as ((j & -> & Hj) & Hs & a & [= <-] & Ha & _). split; [|done].
    exists j. split; [done|]. split; [done|].
    apply N.divide_pos_le in Ha; [|lia]. apply N.pow_le_mono_r_iff in Ha; lia.
  - intros [(j & -> & Hj & Hk) Hs] idx a _ Ha. eexists. apply C127_submitted.
    split; [eauto|]. split; [done|]. exists a. split; [done|]. split; [|done].
    etrans; [|done]. exists (2 ^ (j - k)). rewrite <- N.pow_add_r. f_equal. lia.
Qed.

(** The tables of Tethys and Oceanus, whose pages and alignment are of 4096 bytes: exactly when
    the page size of the scheduler is at most that. *)
Theorem C127_tables k :
  (forall idx a, a <> 0 -> (4096 | a) -> exists r, async_request 4096 4096 (2 ^ k) idx (Some a) = Ok r) <-> k <= 12.
Proof.
  rewrite C127_always by done. change 4096 with (2 ^ 12) at 1. split.
  - intros [(j & Hj & _ & Hk) _]. apply N.pow_inj_r in Hj; lia.
  - intros Hk. split; [exists 12; repeat split; lia|]. by exists 8.
Qed.

(** The error for an offset that is not aligned is never given to a vector. *)
Theorem C127_no_access_error page idx buf sz i :
  check_args page (LReq idx buf sz (to_off (i * sz))) <> (- EINVAL_UNALIGNED_ACCESS)%Z.
Proof.
  unfold check_args. cbn [r_buf r_len r_off]. destruct (is_aligned buf page); cbn [negb]; [|done].
  destruct (N.eqb_spec (sz mod 512) 0) as [Es|Es]; cbn [negb]; [|done].
  apply N.mod_divide in Es; [|done]. by rewrite to_off_512 by (by apply N.divide_mul_r).
Qed.

(** With an alignment below 8 (alignof(T), the default, for arrays of bytes), every asynchronous
    access throws. *)
Theorem C127_default_refuted :
  (exists al sz, al <= sz /\ forall page idx heap, async_request al sz page idx heap = Throw RuntimeError) /\
  forall al sz page idx heap, al < 8 -> async_request al sz page idx heap = Throw RuntimeError.
Proof.
  assert (H : forall al sz page idx heap, al < 8 -> async_request al sz page idx heap = Throw RuntimeError).
  { intros al sz page idx heap Hal. unfold async_request.
    destruct (memalign al heap) eqn:Em; [|done]. apply memalign_some in Em as (_ & j & -> & Hj).
    assert (2 ^ 3 <= 2 ^ j) by (apply N.pow_le_mono_r; lia). change (2 ^ 3) with 8 in *. lia. }
  split; [|done]. exists 1, 4096. split; [done|]. intros. by apply H.
Qed.

(** On a file system with blocks of 1 MB (or a machine with pages of that size), the buffers of a
    table, aligned at 4096, may be refused.  With elements of 1 MB they may be too, and then the
    constructor does not warn. *)
Theorem C127_page_refuted :
  exists os bsize page a,
    async_io_page_size os (Some bsize) = Ok page /\ a <> 0 /\ (4096 | a) /\
    (forall idx, async_request 4096 4096 page idx (Some a) = Throw RuntimeError) /\
    ctor_warns (2 ^ 20) page = false /\
    (forall idx, async_request 4096 (2 ^ 20) page idx (Some a) = Throw RuntimeError).
Proof.
  exists 4096, (2 ^ 20), (2 ^ 20), 4096. split; [done|]. split; [done|]. split; [by exists 1|].
  split; [|split]; [done|by vm_compute|done].
Qed.

(** The warning is given exactly when the elements are not made of whole pages; elements that
    are not may be accessed without any error all the same. *)
Theorem C127_warns os bsize page sz :
  0 < os -> async_io_page_size os bsize = Ok page -> (ctor_warns sz page = false <-> (page | sz)).
Proof.
  intros Hos Hp. unfold async_io_page_size, device_page_size in Hp. destruct bsize as [b|]; [|done].
  injection Hp as <-. unfold ctor_warns. destruct (N.eqb_spec (N.max os b) 0); [lia|].
  rewrite negb_false_iff, N.eqb_eq. by apply N.mod_divide.
Qed.
Theorem C127_warning_refuted :
  exists al sz page, al <= sz /\ ctor_warns sz page = true /\
    forall idx a, (al | a) -> exists r, async_request al sz page idx (Some a) = Ok r.
Proof.
  exists 4096, 4608, (2 ^ 12). split; [done|]. split; [by vm_compute|]. intros idx a Ha.
  destruct (decide (a = 0)) as [->|Hz].
  - eexists. apply C127_submitted. split; [by exists 12|]. split; [by exists 9|]. eexists.
    split; [done|]. split; [apply N.divide_0_r|done].
  - apply (C127_always 12 4096 4608); [done| |done|done]. split; [exists 12; repeat split; lia|by exists 9].
Qed.

(** Page sizes that are not powers of two: the test with a mask takes addresses that are not
    multiples of them. *)
Theorem C127_mask_refuted :
  exists page a idx r, async_request 2048 4096 page idx (Some a) = Ok r /\ ~ (page | a).
Proof.
  exists 6144, 2048, 1. eexists. split; [vm_compute; reflexivity|].
  intros H. apply N.divide_pos_le in H; lia.
Qed.

(** * Positions of the writes *)
Local Open Scope nat_scope.

Definition sized (sz : nat) (c : vcall) : Prop :=
  match c with VPush _ val | VAPush val => length val = sz | _ => True end.
Definition on_elements (sz : nat) (v : vec) : Prop :=
  Nat.divide sz (v_pos v) /\ Forall (fun w : nat * bytes => Nat.divide sz w.1 /\ length w.2 = sz) (v_pending v).

Lemma on_elements_call sz v c : on_elements sz v -> sized sz c -> on_elements sz (vec_call sz v c).1.
Proof.
  intros [Hp Hw] Hc. destruct c as [al val|val|n| |flag|i|i]; cbn [vec_call fst sized] in *.
  - unfold vec_push. destruct (v_committed v); [done|]. destruct (v_direct v && negb al); [done|].
    split; [|done]. cbn [fst v_pos]. rewrite Hc. apply Nat.divide_add_r; [done|apply Nat.divide_refl].
  - split; [done|]. cbn. apply Forall_app. split; [done|]. apply Forall_singleton. split; [|done].
    by exists (v_size v).
  - unfold vec_reserve. by destruct (bool_decide _).
  - unfold vec_commit. destruct (v_committed v); [done|]. split; [done|]. constructor.
  - unfold vec_set_direct. destruct (bool_decide _); [done|]. split; [apply Nat.divide_0_r|constructor].
  - done.
  - unfold vec_complete. destruct (v_pending v !! i); [|done]. split; [done|]. cbn [v_pending]. by apply Forall_delete.
Qed.

(** All the writes of a vector are at multiples of the size of its elements, so at multiples of
    any block size that divides it, as direct accesses need. *)
Theorem C127_positions sz file direct cs B :
  Nat.divide B sz -> Forall (sized sz) cs ->
  let v := (vec_calls sz (open_vec sz file direct) cs).1 in
  Nat.divide B (v_pos v) /\ forall off val, (off, val) ∈ v_pending v -> Nat.divide B off /\ Nat.divide B (length val).
Proof.
  intros HB Hcs.
  assert (H : forall v, on_elements sz v -> on_elements sz (vec_calls sz v cs).1).
  { induction Hcs as [|c cs Hc _ IH]; intros v Hv; [done|]. cbn [vec_calls fst]. by apply IH, on_elements_call. }
  intros v. destruct (H (open_vec sz file direct)) as [Hp Hw].
  { unfold open_vec. destruct (bool_decide _); split; first [apply Nat.divide_0_r|constructor]. }
  fold v in Hp, Hw. split; [by etrans|]. intros off val Hin.
  rewrite Forall_forall in Hw. apply Hw in Hin as [H1 H2]. cbn [fst snd] in *. split; [by etrans|by rewrite H2].
Qed.

(** The test at compile time (the alignment is at most the size) is not enough: the second
    element of a vector of elements of 5000 bytes, aligned at 4096, is written at an address of
    the disk that is not aligned even at 512. *)
Theorem C127_static_refuted :
  exists al sz cs, al <= sz /\ Forall (sized sz) cs /\
    ~ Nat.divide 512 (v_pos (vec_calls sz (open_vec sz [] true) cs).1).
Proof.
  exists (Z.to_nat 4096), (Z.to_nat 5000), [VPush true (replicate (Z.to_nat 5000) 0%N)].
  split; [lia|]. split; [apply Forall_singleton, replicate_length|].
  cbn [vec_calls vec_call fst vec_push open_vec]. unfold vec_push, open_vec. cbn [length].
  rewrite bool_decide_false by lia. cbn [v_committed v_direct v_pos andb negb fst].
  rewrite replicate_length. intros [q Hq]. lia.
Qed.

(** Tables of Tethys on a machine with pages of 4096 bytes. *)
Example C127_example :
  async_io_page_size 4096 (Some 4096%N) = Ok 4096%N /\ ctor_warns 4096 4096 = false /\
  async_request 4096 4096 4096 3 (Some 8192%N) = Ok (LReq 3 8192 4096 12288) /\
  async_request 4096 4096 4096 3 (Some 8200%N) = Throw RuntimeError /\
  sized 4 (VPush true [1; 2; 3; 4]%N).
Proof. repeat split; by vm_compute. Qed.

Print Assumptions C127_submitted.
Print Assumptions C127_offset.
Print Assumptions C127_always.
Print Assumptions C127_tables.
Print Assumptions C127_no_access_error.
Print Assumptions C127_default_refuted.
Print Assumptions C127_page_refuted.
Print Assumptions C127_warns.
Print Assumptions C127_warning_refuted.
Print Assumptions C127_mask_refuted.
Print Assumptions C127_positions.
Print Assumptions C127_static_refuted.
Print Assumptions C127_example.
