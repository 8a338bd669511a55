(** Final theorems about the utilities (properties C45, C53, C54). *)
From stdpp Require Import prelude.
From Coq Require Import NArith Lia.
From Verif Require Import Base EncModel UtilsModel.
Local Open Scope N_scope.

(** ** C53: masking twice *)
Lemma xor_mask_as_xor mask : exists m, forall x, xor_mask x mask = N.lxor x m.
Proof.
  destruct mask as [|m0 [|m1 [|m2 [|m3 [|m4 [|m5 [|m6 [|m7 mask]]]]]]]];
    try (exists 0; intros; symmetry; apply N.lxor_0_r).
  eexists. intros x. cbn [xor_mask]. rewrite !N.lxor_assoc. reflexivity.
Qed.
Theorem C53_sophos : forall x mask, xor_mask (xor_mask x mask) mask = x.
Proof.
  intros x mask. destruct (xor_mask_as_xor mask) as [m Hm]. rewrite !Hm.
  by rewrite N.lxor_assoc, N.lxor_nilpotent, N.lxor_0_r.
Qed.
Print Assumptions C53_sophos.
Theorem C53_diana : forall x mask, length mask = length x ->
  diana_xor_mask (diana_xor_mask x mask) mask = x.
Proof.
  unfold diana_xor_mask. induction x as [|b x IH]; intros [|m mask] H; simpl in *; try done.
  f_equal; [|apply IH; lia]. by rewrite N.lxor_assoc, N.lxor_nilpotent, N.lxor_0_r.
Qed.
Print Assumptions C53_diana.
(** The masking is not trivial: every one of the 64 bits of the mask is used, so that
    different (first eight bytes of) masks give different results. *)
Theorem C53_mask_matters : forall x m1 m2,
  length m1 = 8%nat -> length m2 = 8%nat -> Forall (fun b => b < 256) m1 -> Forall (fun b => b < 256) m2 ->
  xor_mask x m1 = xor_mask x m2 -> m1 = m2.
Proof.
  assert (B : forall b k, b < 256 -> (k < 8 \/ N.testbit b k = false)).
  { intros b k Hb. destruct (N.lt_ge_cases k 8) as [|Hk]; [by left|right].
    apply N.bits_above_log2. destruct (decide (b = 0)) as [->|]; [simpl; lia|].
    assert (N.log2 b < 8); [|lia]. apply N.log2_lt_pow2; [lia|done]. }
  intros x m1 m2 L1 L2 B1 B2 E.
  do 8 (destruct m1 as [|? m1]; [done|]; destruct m2 as [|? m2]; [done|]).
  destruct m1, m2; try done. clear L1 L2. rewrite !Forall_cons in B1, B2.
  destruct_and?. cbn [xor_mask] in E. rewrite !N.lxor_assoc in E.
  assert (X : forall u v, N.lxor x u = N.lxor x v -> u = v).
  { intros u v Huv. rewrite <- (N.lxor_0_l u), <- (N.lxor_0_l v), <- (N.lxor_nilpotent x), !N.lxor_assoc.
    by rewrite Huv. }
  apply X in E. rewrite <- (N.shiftl_0_r n13), <- (N.shiftl_0_r n14) in E. assert (E' := fun p => f_equal (fun y => N.testbit y p) E). simpl in E'. clear E X.
  assert (W : forall a b, a < 256 -> b < 256 -> (forall k, k < 8 -> N.testbit a k = N.testbit b k) -> a = b).
  { intros a b Ha Hb Hk. apply N.bits_inj. intros k.
    destruct (B a k Ha) as [Hlt|Ea]; [by apply Hk|]. destruct (B b k Hb) as [Hlt|Eb]; [by apply Hk|].
    congruence. }
  assert (S : forall a s p, a < 256 -> N.testbit (N.shiftl a s) p =
    if decide (s <= p /\ p < s + 8) then N.testbit a (p - s) else false).
  { intros a s p Ha. case_decide as Hd.
    - apply N.shiftl_spec_high'. lia.
    - destruct (N.lt_ge_cases p s) as [Hlt|Hge]; [by apply N.shiftl_spec_low|].
      rewrite N.shiftl_spec_high' by done. destruct (B a (p - s) Ha) as [|]; [lia|done]. }
  f_equal; [|f_equal; [|f_equal; [|f_equal; [|f_equal; [|f_equal; [|f_equal; [|f_equal]]]]]]]; apply W; try done;
    intros k Hk.
  - specialize (E' (k + 56)). rewrite !N.lxor_spec, !S in E' by done. repeat first [rewrite decide_True in E' by lia|rewrite decide_False in E' by lia].
    rewrite ?xorb_false_r, ?xorb_false_l, ?N.add_sub in E'. exact E'.
  - specialize (E' (k + 48)). rewrite !N.lxor_spec, !S in E' by done. repeat first [rewrite decide_True in E' by lia|rewrite decide_False in E' by lia].
    rewrite ?xorb_false_r, ?xorb_false_l, ?N.add_sub in E'. exact E'.
  - specialize (E' (k + 40)). rewrite !N.lxor_spec, !S in E' by done. repeat first [rewrite decide_True in E' by lia|rewrite decide_False in E' by lia].
    rewrite ?xorb_false_r, ?xorb_false_l, ?N.add_sub in E'. exact E'.
  - specialize (E' (k + 32)). rewrite !N.lxor_spec, !S in E' by done. repeat first [rewrite decide_True in E' by lia|rewrite decide_False in E' by lia].
    rewrite ?xorb_false_r, ?xorb_false_l, ?N.add_sub in E'. exact E'.
  - specialize (E' (k + 24)). rewrite !N.lxor_spec, !S in E' by done. repeat first [rewrite decide_True in E' by lia|rewrite decide_False in E' by lia].
    rewrite ?xorb_false_r, ?xorb_false_l, ?N.add_sub in E'. exact E'.
  - specialize (E' (k + 16)). rewrite !N.lxor_spec, !S in E' by done. repeat first [rewrite decide_True in E' by lia|rewrite decide_False in E' by lia].
    rewrite ?xorb_false_r, ?xorb_false_l, ?N.add_sub in E'. exact E'.
  - specialize (E' (k + 8)). rewrite !N.lxor_spec, !S in E' by done. repeat first [rewrite decide_True in E' by lia|rewrite decide_False in E' by lia].
    rewrite ?xorb_false_r, ?xorb_false_l, ?N.add_sub in E'. exact E'.
  - specialize (E' (k + 0)). rewrite !N.lxor_spec, !S in E' by done. repeat first [rewrite decide_True in E' by lia|rewrite decide_False in E' by lia].
    rewrite ?xorb_false_r, ?xorb_false_l, ?N.add_sub in E'. exact E'.
Qed.
Print Assumptions C53_mask_matters.
Example ex_mask : xor_mask 5 [1; 2; 3; 4; 5; 6; 7; 8] = 72623859790382861 /\
  xor_mask 72623859790382861 [1; 2; 3; 4; 5; 6; 7; 8] = 5.
Proof. by vm_compute. Qed.

(** ** C45: names *)
Definition unhex_digit (b : N) : N := if b <? 58 then b - 48 else b - 87.
Definition unhex (s : bytes) : N := fold_left (fun acc b => acc * 16 + unhex_digit b) s 0.
Lemma unhex_app s t : unhex (s ++ t) = fold_left (fun acc b => acc * 16 + unhex_digit b) t (unhex s).
Proof. unfold unhex. apply fold_left_app. Qed.
Lemma unhex_hex_digit d : d < 16 -> unhex_digit (hex_digit d) = d.
Proof.
  intros H. unfold hex_digit, unhex_digit. destruct (N.ltb_spec d 10).
  - destruct (N.ltb_spec (48 + d) 58); lia.
  - destruct (N.ltb_spec (87 + d) 58); lia.
Qed.
Lemma hex_digits_ok n : forall a, a < 16 ^ N.of_nat (S n) ->
  unhex (hex_digits (S n) a) = a /\ (length (hex_digits (S n) a) <= S n)%nat.
Proof.
  induction n as [|n IH]; intros a Ha.
  - change (16 ^ N.of_nat 1) with 16 in Ha. simpl. destruct (N.ltb_spec a 16); [|lia]. split; [|simpl; lia].
    unfold unhex. simpl. by apply unhex_hex_digit.
  - assert (E : hex_digits (S (S n)) a = if a <? 16 then [hex_digit a] else hex_digits (S n) (a / 16) ++ [hex_digit (a mod 16)]) by done.
    rewrite E. destruct (N.ltb_spec a 16) as [Hlt|Hge].
    + split; [|simpl; lia]. unfold unhex. simpl. by apply unhex_hex_digit.
    + destruct (IH (a / 16)) as [IH1 IH2].
      { apply N.div_lt_upper_bound; [done|]. rewrite (Nat2N.inj_succ (S n)), N.pow_succ_r' in Ha. lia. }
      rewrite unhex_app, IH1, app_length. split; [|simpl in *; lia]. cbn [fold_left].
      rewrite unhex_hex_digit by (apply N.mod_lt; lia). pose proof (N.div_mod a 16). lia.
Qed.
Lemma unhex_pad w s : unhex (pad_left w s) = unhex s.
Proof.
  unfold pad_left. rewrite unhex_app. replace (unhex (replicate (w - length s) 48)) with 0; [done|].
  unfold unhex. generalize (w - length s)%nat. intros n. symmetry. induction n; [done|]. simpl. done.
Qed.
Lemma pad_length w s : (length s <= w)%nat -> length (pad_left w s) = w.
Proof. intros H. unfold pad_left. rewrite app_length, replicate_length. lia. Qed.
Lemma hex_string32_ok a : a < 2 ^ 32 -> unhex (hex_string32 a) = a /\ length (hex_string32 a) = 8%nat.
Proof.
  intros H. change (2 ^ 32) with (16 ^ N.of_nat 8) in H. destruct (hex_digits_ok 7 a H) as [E L].
  unfold hex_string32. by rewrite unhex_pad, pad_length.
Qed.
Lemma hex_string64_ok a : a < 2 ^ 64 -> unhex (hex_string64 a) = a /\ length (hex_string64 a) = 16%nat.
Proof.
  intros H. change (2 ^ 64) with (16 ^ N.of_nat 16) in H. destruct (hex_digits_ok 15 a H) as [E L].
  unfold hex_string64. by rewrite unhex_pad, pad_length.
Qed.

Theorem C45_meta_keyword_injective :
  forall kw c kw' c', c < 2 ^ 32 -> c' < 2 ^ 32 ->
    meta_keyword kw c = meta_keyword kw' c' -> kw = kw' /\ c = c'.
Proof.
  intros kw c kw' c' Hc Hc' E. unfold meta_keyword in E.
  destruct (hex_string32_ok c Hc) as [E1 L1], (hex_string32_ok c' Hc') as [E2 L2].
  apply app_inj_1 in E as [E3 E4]; [|congruence]. split; [done|]. rewrite <- E1, <- E2. by rewrite E3.
Qed.
Print Assumptions C45_meta_keyword_injective.
Theorem C45_keyword_doc_injective :
  forall kw i kw' i', i < 2 ^ 64 -> i' < 2 ^ 64 ->
    keyword_doc_string kw i = keyword_doc_string kw' i' -> kw = kw' /\ i = i'.
Proof.
  intros kw c kw' c' Hc Hc' E. unfold keyword_doc_string in E.
  destruct (hex_string64_ok c Hc) as [E1 L1], (hex_string64_ok c' Hc') as [E2 L2].
  apply app_inj_1 in E as [E3 E4]; [|congruence]. split; [by injection E4|].
  rewrite <- E1, <- E2. by rewrite E3.
Qed.
Print Assumptions C45_keyword_doc_injective.
(** "dog" with counter 30 is "0000001edog"; with document 30, 16 digits and "||". *)
Example ex_names : meta_keyword [100; 111; 103] 30 = [48; 48; 48; 48; 48; 48; 49; 101; 100; 111; 103] /\
  keyword_doc_string [100] 30 = replicate 14 48 ++ [49; 101; 124; 124; 100].
Proof. by vm_compute. Qed.

(** ** C54: concatenating iterator *)
Local Open Scope nat_scope.
Section concat_proofs.
  Context {A : Type}.
  (** Two blocks obtained from the allocator: not adjacent. *)
  Definition apart (c1 c2 : cont A) : Prop := c_end c1 < c_begin c2 \/ c_end c2 < c_begin c1.

  Lemma loop_second c1 c2 : forall (n k fuel : nat), k + n = length (c_elems (A:=A) c2) -> n < fuel ->
    concat_loop fuel c1 c2 (CIter (c_base c2 + k) true) = Ok (drop k (c_elems c2)).
  Proof.
    induction n as [|n IH]; intros k fuel Hk Hf; (destruct fuel as [|fuel]; [lia|]); cbn [concat_loop].
    - unfold concat_eq, concat_end, c_end. simpl. rewrite bool_decide_eq_true_2 by lia.
      by rewrite drop_ge by lia.
    - unfold concat_eq, concat_end, c_end. simpl. rewrite bool_decide_eq_false_2 by lia.
      unfold concat_deref, c_begin. simpl. rewrite bool_decide_eq_true_2 by lia.
      replace (c_base c2 + k - c_base c2) with k by lia.
      destruct (lookup_lt_is_Some_2 (c_elems c2) k) as [x Hx]; [lia|]. unfold vat. rewrite Hx. cbn [rbind].
      unfold concat_incr, c_end. simpl. rewrite bool_decide_eq_false_2 by lia. cbn [rbind].
      rewrite <- Nat.add_succ_r. rewrite IH by lia. cbn [rbind]. by rewrite (drop_S _ _ _ Hx).
  Qed.
  Lemma loop_first c1 c2 : apart c1 c2 ->
    forall (n k fuel : nat), k + S n = length (c_elems c1) -> S n + length (c_elems c2) < fuel ->
    concat_loop fuel c1 c2 (CIter (c_base c1 + k) false) = Ok (drop k (c_elems c1) ++ c_elems c2).
  Proof.
    intros Ha. induction n as [|n IH]; intros k fuel Hk Hf; (destruct fuel as [|fuel]; [lia|]); cbn [concat_loop].
    - unfold concat_eq, concat_end. simpl. rewrite bool_decide_eq_false_2 by (unfold apart, c_end, c_begin in *; lia).
      unfold concat_deref, c_begin. simpl. rewrite bool_decide_eq_true_2 by lia.
      replace (c_base c1 + k - c_base c1) with k by lia.
      destruct (lookup_lt_is_Some_2 (c_elems c1) k) as [x Hx]; [lia|]. unfold vat. rewrite Hx. cbn [rbind].
      unfold concat_incr, c_end, c_begin. simpl. rewrite bool_decide_eq_false_2 by lia.
      rewrite bool_decide_eq_true_2 by lia. cbn [rbind].
      rewrite <- (Nat.add_0_r (c_base c2)), (loop_second c1 c2 (length (c_elems c2)) 0) by lia.
      cbn [rbind]. rewrite drop_0, (drop_S _ _ _ Hx), (drop_ge _ (S k)) by lia. done.
    - unfold concat_eq, concat_end. simpl. rewrite bool_decide_eq_false_2 by (unfold apart, c_end, c_begin in *; lia).
      unfold concat_deref, c_begin. simpl. rewrite bool_decide_eq_true_2 by lia.
      replace (c_base c1 + k - c_base c1) with k by lia.
      destruct (lookup_lt_is_Some_2 (c_elems c1) k) as [x Hx]; [lia|]. unfold vat. rewrite Hx. cbn [rbind].
      unfold concat_incr, c_end, c_begin. simpl. rewrite bool_decide_eq_false_2 by lia.
      rewrite bool_decide_eq_false_2 by lia. cbn [rbind].
      rewrite <- Nat.add_succ_r. rewrite IH by lia. cbn [rbind]. by rewrite (drop_S _ _ _ Hx).
  Qed.
End concat_proofs.

Theorem C54_concat :
  forall (A : Type) (c1 c2 : cont A),
    c_elems c1 <> [] -> apart c1 c2 ->
    concat_loop (S (length (c_elems c1) + length (c_elems c2))) c1 c2 (concat_begin c1 c2) =
      Ok (c_elems c1 ++ c_elems c2).
Proof.
  intros A c1 c2 Hne Ha. destruct (length (c_elems c1)) as [|n] eqn:E.
  { by apply nil_length_inv in E. }
  pose proof (loop_first c1 c2 Ha n 0 (S (S n + length (c_elems c2)))) as H.
  rewrite Nat.add_0_r, drop_0 in H. apply H; lia.
Qed.
Print Assumptions C54_concat.
Example ex_concat : apart (Cont 10 [1; 2; 3]) (Cont 20 [4; 5]) /\
  concat_loop 6 (Cont 10 [1; 2; 3]) (Cont 20 [4; 5]) (concat_begin (Cont 10 [1; 2; 3]) (Cont 20 [4; 5])) = Ok [1; 2; 3; 4; 5].
Proof. split; [left; unfold c_end, c_begin; simpl; lia|by vm_compute]. Qed.
(** Two vectors that never held anything (null pointers). *)
Theorem C54_both_null :
  forall (A : Type) n, concat_loop (S n) (Cont 0 [] : cont A) (Cont 0 []) (concat_begin (Cont 0 [] : cont A) (Cont 0 [])) = Ok [].
Proof. done. Qed.
Print Assumptions C54_both_null.
(** If only the first container is empty, the iteration reads outside of it. *)
Theorem C54_empty_first_refuted :
  exists (c1 c2 : cont nat), c_elems c1 = [] /\ c_elems c2 <> [] /\ apart c1 c2 /\
    forall n, concat_loop (S n) c1 c2 (concat_begin c1 c2) = UB.
Proof.
  exists (Cont 10 []), (Cont 20 [4; 5]). split_and!; [done|done|left; unfold c_end, c_begin; simpl; lia|].
  intros n. cbn [concat_loop]. done.
Qed.
Print Assumptions C54_empty_first_refuted.
