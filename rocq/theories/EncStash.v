(** Proofs about the stash file, the split of a list and page encryption. *)
From stdpp Require Import prelude gmap.
From Coq Require Import ZArith NArith Lia.
From Verif Require Import Base GraphModel EncModel EncSpec EncProofs.
Local Open Scope nat_scope.

Definition entry_bytes (key : bytes) (vs : list bytes) : bytes :=
  key ++ le64 (N.of_nat (length vs)) ++ mjoin vs.

Lemma room_sum p vals ai : ai_ok p vals ai ->
  room p (length vals) (ai_mine ai) + room p (length vals) (ai_dual ai) <= length vals.
Proof. intros (H1 & H2 & H3 & H4 & H5). unfold room, list_control in *. lia. Qed.

Lemma leftover_length p vals x y :
  room p (length vals) x + room p (length vals) y <= length vals ->
  length (leftover p vals x y) = length vals - room p (length vals) x - room p (length vals) y.
Proof. intros H. unfold leftover. rewrite take_length, drop_length. lia. Qed.

Lemma split_exact p vals x y :
  room p (length vals) x + room p (length vals) y <= length vals ->
  take (room p (length vals) x) vals ++ leftover p vals x y ++
  drop (length vals - room p (length vals) y) vals = vals.
Proof.
  unfold leftover. generalize (room p (length vals) x), (room p (length vals) y). intros a b H.
  replace (drop (length vals - b) vals) with (drop (length vals - a - b) (drop a vals)).
  - by rewrite take_drop, take_drop.
  - rewrite drop_drop. f_equal. lia.
Qed.

Lemma serialize_ok p q : part_ok p q ->
  serialize_key_value p (pt_key q) (pt_vals q) (pt_ai q) =
  Ok (if decide (stashed p q = []) then [] else entry_bytes (pt_key q) (stashed p q)).
Proof.
  intros [[Hk Hv] Hai]. pose proof (room_sum p _ _ Hai) as Hr.
  pose proof (leftover_length p (pt_vals q) (ai_mine (pt_ai q)) (ai_dual (pt_ai q)) Hr) as Hl.
  destruct Hai as (H1 & H2 & H3 & H4 & H5). unfold serialize_key_value.
  rewrite (sub64_id (ai_len (pt_ai q))) by lia.
  assert (E : forall x, (0 <= x <= ai_len (pt_ai q))%Z ->
    Z.min (if bool_decide (x <= Z.of_nat (ctl_half p))%Z then 0%Z
           else sub64 x (Z.of_nat (ctl_half p)))
      (ai_len (pt_ai q) - Z.of_nat (list_control p)) = Z.of_nat (room p (length (pt_vals q)) x)).
  { intros x Hx. unfold room. case_bool_decide; [lia|]. rewrite sub64_id by lia. lia. }
  rewrite !E by lia. clear E.
  rewrite (sub64_id (_ - _)) by lia. rewrite (sub64_id (_ - _ - _)) by lia.
  fold (stashed p q) in Hl.
  replace (ai_len (pt_ai q) - Z.of_nat (list_control p) -
           Z.of_nat (room p (length (pt_vals q)) (ai_mine (pt_ai q))) -
           Z.of_nat (room p (length (pt_vals q)) (ai_dual (pt_ai q))))%Z
    with (Z.of_nat (length (stashed p q))) by lia.
  case_bool_decide as Hz.
  { rewrite decide_True; [done|]. apply nil_length_inv. lia. }
  rewrite decide_False by (intros E; rewrite E in Hz; done).
  rewrite (sub64_id (Z.of_nat (length (pt_vals q)))) by lia.
  rewrite bool_decide_false by lia. rewrite bool_decide_true by lia. cbn [rbind].
  unfold entry_bytes. rewrite <- nat_N_Z, N2Z.id.
  assert (E : take (Z.to_nat (Z.of_nat (length (pt_vals q)) -
       Z.of_nat (room p (length (pt_vals q)) (ai_dual (pt_ai q)))) -
     Z.to_nat (Z.of_nat (room p (length (pt_vals q)) (ai_mine (pt_ai q)))))
    (drop (Z.to_nat (Z.of_nat (room p (length (pt_vals q)) (ai_mine (pt_ai q))))) (pt_vals q))
    = stashed p q); [|by rewrite E].
  unfold stashed, leftover. rewrite Nat2Z.id. f_equal. lia.
Qed.

Lemma deserialize_entry p key vs s :
  obj_ok p key vs -> (N.of_nat (length vs) < 2 ^ 64)%N ->
  deserialize_key_value p (entry_bytes key vs ++ s) = Ok ((key, vs), s).
Proof.
  intros [Hk Hv] Hb. unfold deserialize_key_value, entry_bytes.
  rewrite bool_decide_false by (rewrite !app_length; lia).
  rewrite <- !app_assoc. rewrite take_app_alt, drop_app_alt by done.
  rewrite take_app_alt, drop_app_alt by by rewrite le64_length.
  rewrite le64_val by done.
  pose proof (mjoin_length_sz _ _ Hv) as Hm.
  rewrite bool_decide_true by (rewrite app_length; lia).
  rewrite Nat2N.id, chunks_app, chunks_mjoin by done. rewrite drop_app_alt by done. done.
Qed.

Fixpoint entries (p : eparams) (qs : list part) : list (bytes * list bytes) :=
  match qs with
  | [] => []
  | q :: qs' =>
      if decide (stashed p q = []) then entries p qs'
      else (pt_key q, stashed p q) :: entries p qs'
  end.
Definition entries_bytes (l : list (bytes * list bytes)) : bytes :=
  mjoin ((fun kv => entry_bytes kv.1 kv.2) <$> l).

Lemma serialize_parts_ok p qs : Forall (part_ok p) qs ->
  serialize_parts p qs = Ok (entries_bytes (entries p qs)).
Proof.
  induction 1 as [|q qs Hq _ IH]; csimpl; [done|].
  rewrite serialize_ok by done. cbn [rbind]. rewrite IH. cbn [rbind].
  case_decide; done.
Qed.

Lemma stashed_obj p q : part_ok p q ->
  obj_ok p (pt_key q) (stashed p q) /\ (N.of_nat (length (stashed p q)) < 2 ^ 64)%N.
Proof.
  intros [[Hk Hv] Hai]. split.
  - split; [done|]. unfold stashed, leftover. by apply Forall_take, Forall_drop.
  - unfold stashed. rewrite leftover_length by by apply room_sum.
    destruct Hai as (H1 & _ & _ & _ & H5). lia.
Qed.

Lemma entries_ok p qs : Forall (part_ok p) qs ->
  Forall (fun kv => obj_ok p kv.1 kv.2 /\ (N.of_nat (length kv.2) < 2 ^ 64)%N) (entries p qs).
Proof.
  induction 1 as [|q qs Hq _ IH]; simpl; [constructor|].
  case_decide; [done|]. constructor; [by apply stashed_obj|done].
Qed.

Lemma deserialize_loop_ok p l : forall fuel,
  Forall (fun kv => obj_ok p kv.1 kv.2 /\ (N.of_nat (length kv.2) < 2 ^ 64)%N) l ->
  length (entries_bytes l) < fuel ->
  deserialize_loop fuel p (entries_bytes l) = Ok l.
Proof.
  unfold entries_bytes. induction l as [|[k vs] l IH]; intros fuel Hl Hf; csimpl in *.
  { by destruct fuel. }
  apply Forall_cons in Hl as [[Ho Hb] Hl]. simpl in Ho, Hb. rewrite app_length in Hf.
  assert (Hpos : 0 < length (entry_bytes k vs)).
  { unfold entry_bytes. rewrite !app_length, le64_length. lia. }
  destruct fuel as [|fuel]; [lia|]. cbn [deserialize_loop].
  destruct (entry_bytes k vs ++ mjoin ((λ kv, entry_bytes kv.1 kv.2) <$> l)) eqn:Es.
  { apply app_eq_nil in Es as [Es _]. rewrite Es in Hpos. simpl in Hpos. lia. }
  rewrite <- Es. rewrite deserialize_entry by done. cbn [rbind fst snd].
  rewrite IH by (auto; lia). done.
Qed.

Lemma foldl_insert_lookup (l : list (bytes * list bytes)) : forall (m : gmap bytes (list bytes)) k,
  NoDup l.*1 ->
  foldl (fun m kv => <[kv.1 := kv.2]> m) m l !! k =
  match list_find (fun kv => kv.1 = k) l with Some (_, kv) => Some kv.2 | None => m !! k end.
Proof.
  induction l as [|[k' v] l IH]; intros m k Hnd; csimpl; [done|].
  csimpl in Hnd. apply NoDup_cons in Hnd as [Hnin Hnd]. rewrite IH by done.
  case_decide as Hk; simpl in *.
  - subst k'. destruct (list_find _ l) as [[i kv]|] eqn:Ef; [|by rewrite lookup_insert].
    apply list_find_Some in Ef as (Hi & Hx & _). exfalso. apply Hnin.
    apply elem_of_list_fmap. exists kv. split; [done|]. by eapply elem_of_list_lookup_2.
  - destruct (list_find _ l) as [[i kv]|]; simpl; [done|]. by rewrite lookup_insert_ne.
Qed.

Lemma entries_keys p qs k : k ∈ (entries p qs).*1 -> k ∈ pt_key <$> qs.
Proof.
  induction qs as [|q qs IH]; csimpl; [done|]. case_decide; csimpl.
  - intros H'. apply elem_of_list_further. auto.
  - rewrite !elem_of_cons. intros [->|H']; auto.
Qed.

Lemma entries_nodup p qs : NoDup (pt_key <$> qs) -> NoDup (entries p qs).*1.
Proof.
  induction qs as [|q qs IH]; csimpl; [constructor|]. intros H.
  apply NoDup_cons in H as [Hnin H]. case_decide; [auto|]. csimpl. constructor; auto.
  intros Hk. apply Hnin. eauto using entries_keys.
Qed.

Lemma entries_find p qs k : NoDup (pt_key <$> qs) ->
  match list_find (fun kv : bytes * list bytes => kv.1 = k) (entries p qs) with
  | Some (_, kv) => Some kv.2 | None => None end = lookup_stash p k qs.
Proof.
  unfold lookup_stash. induction qs as [|q qs IH]; csimpl; [done|]. intros Hnd.
  apply NoDup_cons in Hnd as [Hnin Hnd]. specialize (IH Hnd).
  destruct (decide (pt_key q = k)) as [Hk|Hk].
  - destruct (decide (stashed p q = [])) as [Hs|Hs]; csimpl.
    + destruct (list_find _ (entries p qs)) as [[i kv]|] eqn:Ef; [|done].
      apply list_find_Some in Ef as (Hi & Hx & _). exfalso. apply Hnin.
      rewrite Hk, <- Hx. apply (entries_keys p). apply elem_of_list_fmap. exists kv.
      split; [done|]. by eapply elem_of_list_lookup_2.
    + rewrite decide_True by done. done.
  - destruct (decide (stashed p q = [])); csimpl; [|rewrite decide_False by done];
      destruct (list_find _ (entries p qs)) as [[j kv]|]; csimpl in *;
      destruct (list_find _ qs) as [[i x]|]; csimpl in *; done.
Qed.

Lemma stash_roundtrip p qs : Forall (part_ok p) qs -> NoDup (pt_key <$> qs) ->
  exists file m, serialize_parts p qs = Ok file /\ deserialize_map p file = Ok m /\
    forall k, m !! k = lookup_stash p k qs.
Proof.
  intros Hqs Hnd. rewrite serialize_parts_ok by done. eexists _, _. split; [done|].
  unfold deserialize_map. rewrite deserialize_loop_ok; [|by apply entries_ok|lia].
  split; [done|]. intros k. rewrite foldl_insert_lookup by by apply entries_nodup.
  rewrite <- entries_find by done. destruct (list_find _ _) as [[??]|]; done.
Qed.

(** * Encryption *)
Lemma xor_bytes_length a b : length a = length b -> length (xor_bytes a b) = length b.
Proof. intros H. unfold xor_bytes. rewrite zip_with_length. lia. Qed.

Lemma xor_bytes_involutive m b : length m = length b -> xor_bytes m (xor_bytes m b) = b.
Proof.
  unfold xor_bytes. revert b. induction m as [|x m IH]; intros [|y b] H; simpl in *; try done.
  rewrite <- N.lxor_assoc, N.lxor_nilpotent, N.lxor_0_l. f_equal. apply IH. lia.
Qed.

Lemma nonce_inj i j :
  (Z.of_nat i < 2 ^ 64)%Z -> (Z.of_nat j < 2 ^ 64)%Z -> nonce_of i = nonce_of j -> i = j.
Proof. intros Hi Hj E. unfold nonce_of in E. apply le64_inj in E; lia. Qed.

(** * Whole words *)
Lemma words_bytes p qs : words p -> Forall (part_ok p) qs ->
  length (parts_bytes p qs) mod 8 = 0.
Proof.
  intros (Ht & HK & HP & _) Hqs. apply Nat.mod_divides; [lia|].
  apply Nat.mod_divides in HK as [a Ha]; [|lia].
  induction Hqs as [|q qs Hq _ [c IH]]; [by exists 0|].
  unfold parts_bytes in *. csimpl. rewrite app_length, IH. unfold part_bytes.
  case_bool_decide; [by exists c|].
  rewrite (slot_bytes_length p) by by apply kept_obj. rewrite Ht, Ha.
  exists (1 + a + length (kept p q) + c). lia.
Qed.

Lemma words_slack p qs : words p -> Forall (part_ok p) qs ->
  length (parts_bytes p qs) <= kp_page p ->
  kp_page p - length (parts_bytes p qs) = 0 \/ 8 <= kp_page p - length (parts_bytes p qs).
Proof.
  intros Hw Hq Hle. pose proof (words_bytes p qs Hw Hq) as H. destruct Hw as (_ & _ & HP & _).
  apply Nat.mod_divides in H as [a Ha]; [|lia]. apply Nat.mod_divides in HP as [b Hb]; [|lia].
  lia.
Qed.
