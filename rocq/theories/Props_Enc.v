(** Final theorems about the encoders (properties C10-C14). *)
From stdpp Require Import prelude gmap.
From Coq Require Import ZArith NArith Lia.
From Verif Require Import Base GraphModel AllocModel EncModel EncSpec EncProofs EncStash StoreModel StoreSpec
  StoreProofs StoreTheorems.
Local Open Scope nat_scope.

(** Keys of 16 bytes and values of 8 bytes, as in the repository, and pages of
    16 words. *)
Definition ex_p : eparams := EPar 16 8 128.
Definition ex_key (n : N) : bytes := replicate 16 n.
Definition ex_val (n : N) : bytes := le64 n.
(** Three lists: the first is cut (2 of its 4 values are here), the second one
    has all its values but not all its control words, the third one was granted
    too little to hold anything. *)
Definition ex_qs : list part :=
  [Part (ex_key 1) (ex_val <$> [1;2;3;4]%N) (AInfo 10 5 5 Incoming);
   Part (ex_key 2) (ex_val <$> [5;6]%N) (AInfo 8 7 1 Outgoing);
   Part (ex_key 3) (ex_val <$> [7]%N) (AInfo 7 3 4 Outgoing)].
Example ex_p_words : words ex_p.
Proof. split_and!; try done. Qed.
Example ex_qs_ok :
  Forall (part_ok ex_p) ex_qs /\ Forall (fun q => pt_vals q <> []) ex_qs /\
  NoDup (pt_key <$> ex_qs) /\ (granted ex_qs <= Z.of_nat (bucket_size ex_p))%Z.
Proof.
  split_and!; try done.
  - repeat constructor; try done; apply le64_length.
  - repeat constructor; done.
  - apply (bool_decide_unpack _). vm_compute. done.
Qed.
Example ex_qs_lookup :
  lookup_parts ex_p (ex_key 1) ex_qs = ex_val <$> [1;2]%N /\
  lookup_parts ex_p (ex_key 2) ex_qs = ex_val <$> [5;6]%N /\
  lookup_parts ex_p (ex_key 3) ex_qs = [].
Proof. by vm_compute. Qed.

(** ** C10: encoding then decoding. *)
Theorem C10_roundtrip :
  forall p qs,
    words p -> Forall (part_ok p) qs -> Forall (fun q => pt_vals q <> []) qs ->
    NoDup (pt_key <$> qs) -> (granted qs <= Z.of_nat (bucket_size p))%Z ->
    exists page, encode_page p qs = Ok page /\ length page = kp_page p /\
      forall key, decode_single p key page = Ok (lookup_parts p key qs).
Proof.
  intros p qs Hw Hq Hne Hnd Hg. pose proof (words_aligned p Hw) as Hal.
  assert (Hlen : length (parts_bytes p qs) <= kp_page p).
  { pose proof (parts_bytes_le p qs Hal Hq). unfold bucket_size in Hg. destruct Hal as (Ht & _).
    pose proof (Nat.div_mod (kp_page p) (kp_val p)). nia. }
  eexists. split; [by apply encode_page_ok|]. split.
  - rewrite app_length, replicate_length. lia.
  - intros key. apply decode_page_ok; auto; [|by apply words_slack].
    exists qs, []. rewrite app_nil_r. auto.
Qed.
Print Assumptions C10_roundtrip.

(** The same for any size of value that divides the size of a length (8) and the
    size of a key, as long as the end of the page can hold a length. *)
Theorem C10_roundtrip_narrow :
  forall p qs buf wrt,
    aligned p -> Forall (part_ok p) qs -> Forall (fun q => pt_vals q <> []) qs ->
    NoDup (pt_key <$> qs) -> (granted qs <= Z.of_nat (bucket_size p))%Z ->
    encode_parts p (replicate (kp_page p) 255%N) 0 qs = Ok (buf, wrt) ->
    (kp_page p - wrt = 0 \/ 8 <= kp_page p - wrt) ->
    exists page, encode_page p qs = Ok page /\
      forall key, decode_single p key page = Ok (lookup_parts p key qs).
Proof.
  intros p qs buf wrt Hal Hq Hne Hnd Hg Henc Hz.
  assert (Hlen : length (parts_bytes p qs) <= kp_page p).
  { pose proof (parts_bytes_le p qs Hal Hq). unfold bucket_size in Hg. destruct Hal as (Ht & _).
    pose proof (Nat.div_mod (kp_page p) (kp_val p)). nia. }
  pose proof (encode_parts_ok p qs [] (replicate (kp_page p) 255%N) Hal Hq) as E.
  rewrite replicate_length in E. specialize (E Hlen). simpl in E. rewrite E in Henc.
  simplify_eq.
  eexists. split; [by apply encode_page_ok|].
  intros key. apply decode_page_ok; auto. exists qs, []. rewrite app_nil_r. auto.
Qed.
Print Assumptions C10_roundtrip_narrow.

Definition ex_p4 : eparams := EPar 16 4 128.
Definition ex_qs4 : list part :=
  [Part (ex_key 1) (replicate 4 <$> [1;2;3;4]%N) (AInfo 16 9 7 Incoming)].
Example ex_qs4_ok :
  aligned ex_p4 /\ Forall (part_ok ex_p4) ex_qs4 /\ Forall (fun q => pt_vals q <> []) ex_qs4 /\
  (granted ex_qs4 <= Z.of_nat (bucket_size ex_p4))%Z /\
  exists buf, encode_parts ex_p4 (replicate (kp_page ex_p4) 255%N) 0 ex_qs4 = Ok (buf, 36).
Proof. split_and!; try done; repeat constructor; try done. vm_compute. by eexists. Qed.

(** Without the condition on the end of the page the decoder reads out of the
    page: with 4-byte values, a page that keeps 4 free bytes. *)
Theorem C10_narrow_refuted :
  exists p qs page key,
    aligned p /\ Forall (part_ok p) qs /\ Forall (fun q => pt_vals q <> []) qs /\
    NoDup (pt_key <$> qs) /\ (granted qs <= Z.of_nat (bucket_size p))%Z /\
    encode_page p qs = Ok page /\ decode_single p key page = UB.
Proof.
  exists (EPar 16 4 40), [Part (ex_key 1) (replicate 4 <$> [1;2;3]%N) (AInfo 15 9 6 Incoming)].
  eexists _, (ex_key 2).
  split; [unfold aligned; simpl; split_and!; [lia|done|done|lia]|]. split; [repeat constructor; try done|].
  split; [by repeat constructor|]. split; [repeat constructor; by intros ?%elem_of_nil|].
  split; [done|]. split; [by vm_compute|]. by vm_compute.
Qed.
Print Assumptions C10_narrow_refuted.

(** When padding is needed (values of 16 bytes) the decoder does not skip it:
    the values written are not found. *)
Theorem C10_padding_refuted :
  exists p qs page q,
    Forall (part_ok p) qs /\ Forall (fun q => pt_vals q <> []) qs /\
    NoDup (pt_key <$> qs) /\ (granted qs <= Z.of_nat (bucket_size p))%Z /\
    encode_page p qs = Ok page /\ q ∈ qs /\ kept p q = pt_vals q /\
    decode_single p (pt_key q) page = Ok [].
Proof.
  exists (EPar 16 16 256), [Part (ex_key 1) [replicate 16 7%N] (AInfo 5 5 0 Incoming)].
  eexists _, (Part (ex_key 1) [replicate 16 7%N] (AInfo 5 5 0 Incoming)).
  split; [repeat constructor; try done|].
  split; [by repeat constructor|]. split; [repeat constructor; by intros ?%elem_of_nil|].
  split; [done|]. split; [by vm_compute|]. split; [by left|]. split; [done|]. by vm_compute.
Qed.
Print Assumptions C10_padding_refuted.

Lemma chunks_exact sz n : forall b, length b = n * sz -> length (chunks sz n b) = n /\ mjoin (chunks sz n b) = b.
Proof.
  induction n as [|n IH]; intros b Hb; cbn [chunks].
  - split; [done|]. symmetry. by apply nil_length_inv.
  - destruct (IH (drop sz b)) as [E1 E2]; [rewrite drop_length; lia|]. split; [cbn [length]; by rewrite E1|].
    change (mjoin (take sz b :: chunks sz n (drop sz b))) with (take sz b ++ mjoin (chunks sz n (drop sz b))). rewrite E2. apply take_drop.
Qed.
(** Whatever the list: with a key that is not a whole number of values (values that divide a length), the bytes written
    after the key start with 0x22, and the decoder takes them for the values. *)
Theorem C10_padding :
  forall p q,
    0 < kp_val p -> 8 mod kp_val p = 0 -> kp_key p mod kp_val p <> 0 -> (Z.of_nat (kp_page p) < 2 ^ 64)%Z ->
    part_ok p q -> (Z.of_nat (ctl_half p) < ai_mine (pt_ai q) <= Z.of_nat (bucket_size p))%Z -> pt_vals q <> [] ->
    list_control p <= bucket_size p ->
    let pad := kp_val p - kp_key p mod kp_val p in
    0 < pad /\
    exists page tail, encode_page p [q] = Ok page /\ length page = kp_page p /\
      page = le64 (N.of_nat (length (kept p q))) ++ pt_key q ++ replicate pad 34%N ++ mjoin (kept p q) ++ tail /\
      exists vs, decode_single p (pt_key q) page = Ok vs /\ length vs = length (kept p q) /\
        mjoin vs = take (length (kept p q) * kp_val p) (replicate pad 34%N ++ mjoin (kept p q)).
Proof.
  intros p q H0 H8 HK HP Hq [Hm1 Hm2] Hv HL pad.
  pose proof (Nat.mod_upper_bound (kp_key p) (kp_val p) ltac:(lia)) as Hmu. split; [lia|].
  pose proof (kept_obj p q Hq) as Hko. pose proof (kept_length p q) as Hkl. pose proof (kept_nonempty p q Hq Hm1 Hv) as Hkn.
  assert (Hk0 : 0 < length (kept p q)) by (destruct (kept p q); [done|simpl; lia]).
  destruct Hq as [[Hk Hvs] (Hai & Ha0 & Ha1 & Ha2 & Ha3)].
  assert (Hle : len_entries p * kp_val p = 8).
  { unfold len_entries. rewrite decide_True by done. pose proof (Nat.div_mod 8 (kp_val p)). lia. }
  assert (Hke : key_entries p * kp_val p = kp_key p + pad).
  { unfold key_entries. rewrite decide_False by done. unfold pad. pose proof (Nat.div_mod (kp_key p) (kp_val p)). nia. }
  assert (Hch : ctl_half p * kp_val p = 8 + kp_key p + pad) by (unfold ctl_half; lia).
  assert (Hlc : list_control p * kp_val p = 2 * (8 + kp_key p + pad)) by (unfold list_control; lia).
  assert (Hbs : bucket_size p * kp_val p <= kp_page p).
  { unfold bucket_size. pose proof (Nat.div_mod (kp_page p) (kp_val p)). lia. }
  assert (Hlp : 2 * (8 + kp_key p + pad) <= kp_page p) by nia.
  set (n := length (kept p q)) in *.
  assert (Hroom : 8 + kp_key p + pad + n * kp_val p <= kp_page p).
  { assert (ctl_half p + n <= bucket_size p) by (rewrite Hkl; unfold room; lia). nia. }
  set (buf := replicate (kp_page p) 255%N).
  assert (Hb : length buf = kp_page p) by apply replicate_length.
  assert (Hmj : length (mjoin (kept p q)) = n * kp_val p) by (apply mjoin_length_sz, Hko).
  set (hd := (le64 (N.of_nat n) ++ pt_key q) ++ replicate pad 34%N).
  assert (Hhd : length hd = 8 + kp_key p + pad).
  { unfold hd. rewrite !app_length, le64_length, replicate_length, Hk. lia. }
  assert (E : exists rest, encode p buf 0 (pt_key q) (pt_vals q) (pt_ai q) =
     Ok ((hd ++ mjoin (kept p q)) ++ rest, length hd + n * kp_val p) /\ length rest = kp_page p - (length hd + n * kp_val p)).
  { unfold encode. rewrite bool_decide_false by lia.
    rewrite (sub64_id (ai_len (pt_ai q))) by lia. rewrite (sub64_id (ai_mine (pt_ai q))) by lia.
    assert (En : Z.min (ai_mine (pt_ai q) - Z.of_nat (ctl_half p)) (ai_len (pt_ai q) - Z.of_nat (list_control p)) = Z.of_nat n).
    { rewrite Hkl. unfold room. lia. }
    rewrite En. unfold sublist_of.
    rewrite bool_decide_true by (rewrite Hkl; pose proof (room_le p (length (pt_vals q)) (ai_mine (pt_ai q))); lia).
    rewrite Nat2Z.id.
    assert (Es : (match ai_dir (pt_ai q) with
       | Incoming => Ok (take n (pt_vals q))
       | Outgoing => Ok (drop (length (pt_vals q) - n) (pt_vals q))
       end) = Ok (kept p q)).
    { rewrite Hkl. unfold kept. by destruct (ai_dir _). }
    rewrite Es. cbn [rbind]. rewrite <- nat_N_Z, N2Z.id.
    pose proof (wr_next [] (le64 (N.of_nat n)) buf [] 0 eq_refl ltac:(rewrite le64_length; lia)) as E1. cbn [app] in E1.
    rewrite E1. cbn [rbind]. rewrite le64_length. clear E1.
    rewrite (bool_decide_false (8 < _)) by lia. cbn [rbind fst snd].
    rewrite wr_next; [|done|rewrite le64_length; lia|rewrite drop_length; lia]. cbn [rbind].
    rewrite bool_decide_true by lia. rewrite drop_drop, Hk.
    unfold fill. rewrite bool_decide_false by lia.
    replace (0 + list_control p * kp_val p - (0 + (8 + kp_key p))) with (8 + kp_key p + 2 * pad) by lia.
    rewrite wr_next; [|done|rewrite app_length, le64_length; lia|rewrite replicate_length, drop_length; lia]. cbn [rbind fst snd].
    rewrite replicate_length, drop_drop.
    assert (Er : replicate (8 + kp_key p + 2 * pad) 34%N = replicate pad 34%N ++ replicate (8 + kp_key p + pad) 34%N).
    { rewrite <- replicate_add. f_equal. lia. }
    rewrite Er. clear Er.
    rewrite (app_assoc (le64 _ ++ _)), <- (app_assoc ((le64 _ ++ _) ++ _)). fold hd.
    match goal with |- context [write_values _ (hd ++ ?t) _ _ _] => set (T := t) end.
    assert (HT : length T = kp_page p - length hd). { unfold T. rewrite app_length, replicate_length, drop_length. lia. }
    rewrite write_values_ok; [|lia|apply Hko|lia]. eexists. rewrite Hmj, Hch, Hhd. split; [done|]. rewrite drop_length. lia. }
  destruct E as (rest & E & Hrest). unfold encode_page. cbn [encode_parts]. fold buf. rewrite E. cbn [rbind fst snd Nat.add].
  replace (length hd + n * kp_val p) with (length (hd ++ mjoin (kept p q))) by (rewrite app_length; lia).
  replace (kp_page p - length (hd ++ mjoin (kept p q))) with (length rest) by (rewrite app_length; lia).
  rewrite finish_block_ok. cbn [rbind fst]. set (z := replicate (length rest) 0%N).
  exists ((hd ++ mjoin (kept p q)) ++ z), z. split; [done|].
  split. { unfold z. rewrite !app_length, replicate_length. lia. }
  split. { unfold hd. by rewrite <- !app_assoc. }
  set (body := replicate pad 34%N ++ mjoin (kept p q)).
  assert (Ep : (hd ++ mjoin (kept p q)) ++ z = le64 (N.of_nat n) ++ pt_key q ++ body ++ z).
  { unfold hd, body. by rewrite <- !app_assoc. }
  assert (Hbd : length body = pad + n * kp_val p) by (unfold body; rewrite app_length, replicate_length; lia).
  assert (Htb : length (take (n * kp_val p) body) = n * kp_val p) by (rewrite take_length; lia).
  exists (chunks (kp_val p) n (take (n * kp_val p) body)). split.
  - rewrite Ep. unfold decode_single. cbn [decode_loop].
    rewrite bool_decide_true by (rewrite !app_length, le64_length; lia).
    pose proof (rd_app [] (le64 (N.of_nat n)) (pt_key q ++ body ++ z) 0 8 eq_refl ltac:(by rewrite le64_length)) as E1. cbn [app] in E1.
    rewrite E1. cbn [rbind]. clear E1. rewrite le64_val by nia. rewrite bool_decide_false by lia.
    rewrite rd_app; [|by rewrite le64_length|by rewrite Hk]. cbn [rbind]. rewrite bool_decide_true by done.
    rewrite <- (take_drop (n * kp_val p) body) at 1. rewrite <- (app_assoc (take _ _)), (app_assoc (le64 _)).
    rewrite rd_app; [cbn [rbind]; by rewrite Nat2N.id|rewrite app_length, le64_length; lia|lia].
  - by apply chunks_exact.
Qed.
Print Assumptions C10_padding.
Example C10_padding_example :
  let p := EPar 12 8 64 in let q := Part (replicate 12 1%N) (ex_val <$> [1;2]%N) (AInfo 8 5 3 Incoming) in
  kp_key p mod kp_val p <> 0 /\ part_ok p q /\ (Z.of_nat (ctl_half p) < ai_mine (pt_ai q) <= Z.of_nat (bucket_size p))%Z /\
  list_control p <= bucket_size p /\ kept p q = ex_val <$> [1;2]%N.
Proof. split; [done|]. split; [repeat constructor; try done; apply le64_length|]. split; [done|]. split; [vm_compute; lia|done]. Qed.

(** ** C11: what the allocation grants in a page fits in its bytes. *)
Theorem C11_page_fits :
  forall p qs,
    aligned p -> Forall (part_ok p) qs -> (granted qs <= Z.of_nat (bucket_size p))%Z ->
    exists page, encode_page p qs = Ok page /\ length page = kp_page p.
Proof.
  intros p qs Hal Hq Hg.
  assert (Hlen : length (parts_bytes p qs) <= kp_page p).
  { pose proof (parts_bytes_le p qs Hal Hq). unfold bucket_size in Hg. destruct Hal as (Ht & _).
    pose proof (Nat.div_mod (kp_page p) (kp_val p)). nia. }
  eexists. split; [by apply encode_page_ok|]. rewrite app_length, replicate_length. lia.
Qed.
Print Assumptions C11_page_fits.

(** A build never aborts and never writes out of a page, whatever the lists,
    empty ones and repeated keys included. *)
Theorem C11_build_never_aborts :
  forall sp kvs b0,
    aligned (sp_enc sp) -> 2 <= sp_n sp -> cipher_ok (sp_cipher sp) ->
    Forall (fun kv => obj_ok (sp_enc sp) kv.1 kv.2) kvs ->
    new_store_builder sp = Ok b0 ->
    exists b f,
      (forall fuel, store_fuel (sp_enc sp) kvs <= fuel ->
         store_build fuel sp (run_inserts sp b0 kvs).1 = (b, Ok f)) /\
      length (sf_table f) = sp_n sp /\
      Forall (fun page => length page = kp_page (sp_enc sp)) (sf_table f).
Proof.
  intros sp kvs b0 Hal Hn Hc Ho Hb.
  destruct (run_inserts_inv sp Hn kvs [] b0 [] (new_builder_inv sp b0 Hb)) as (its & Hs & _).
  destruct (store_build_ok sp kvs _ its Hal Hn Hc Ho Hs) as (a & L & l & f & Hf & B).
  eexists _, f. split; [exact Hf|]. rewrite (bt_table _ _ _ _ _ _ B), fmap_length, seq_length.
  split; [done|]. apply Forall_fmap, Forall_forall. intros v Hv. apply elem_of_seq in Hv.
  destruct (bt_pages _ _ _ _ _ _ B v ltac:(lia)) as [_ Hlen]. simpl.
  assert (Hpl : length (plain_page (sp_enc sp) (accepted (sp_enc sp) kvs) L v) = kp_page (sp_enc sp)).
  { unfold plain_page. rewrite app_length, replicate_length. lia. }
  unfold stored_page. destruct (sp_cipher sp); [done|]. simpl in Hc.
  rewrite xor_bytes_length; [done|]. by rewrite Hc.
Qed.
Print Assumptions C11_build_never_aborts.

(** With padding (keys of 12 bytes) the fill goes past the granted room and out
    of the page. *)
Theorem C11_padding_refuted :
  exists p qs,
    Forall (part_ok p) qs /\ (granted qs <= Z.of_nat (bucket_size p))%Z /\
    encode_page p qs = UB.
Proof.
  exists (EPar 12 8 64),
    [Part (replicate 12 1%N) (ex_val <$> [1;2]%N) (AInfo 8 4 4 Incoming);
     Part (replicate 12 2%N) (ex_val <$> [3;4]%N) (AInfo 8 4 4 Incoming)].
  split; [repeat constructor; try done; apply le64_length|]. split; [done|]. by vm_compute.
Qed.
Print Assumptions C11_padding_refuted.

(** ** C12: the three parts of a list. *)
Theorem C12_split_exact :
  forall p key vals len x y,
    obj_ok p key vals -> ai_ok p vals (AInfo len x y Incoming) -> aligned p ->
    exists first middle last,
      first ++ middle ++ last = vals /\
      (** the first bin, as an incoming edge *)
      (forall pre buf, kp_page p <= length buf -> (x <= Z.of_nat (bucket_size p))%Z ->
         exists bs, encode p (pre ++ buf) (length pre) key vals (AInfo len x y Incoming)
           = Ok (pre ++ bs ++ drop (length bs) buf, length bs) /\
           (bs = [] /\ first = [] \/ bs = le64 (N.of_nat (length first)) ++ key ++ mjoin first)) /\
      (** the second bin, as an outgoing edge *)
      (forall pre buf, kp_page p <= length buf -> (y <= Z.of_nat (bucket_size p))%Z ->
         exists bs, encode p (pre ++ buf) (length pre) key vals (AInfo len y x Outgoing)
           = Ok (pre ++ bs ++ drop (length bs) buf, length bs) /\
           (bs = [] /\ last = [] \/ bs = le64 (N.of_nat (length last)) ++ key ++ mjoin last)) /\
      (** the stash *)
      serialize_key_value p key vals (AInfo len x y Incoming) =
        Ok (match middle with [] => [] | _ => key ++ le64 (N.of_nat (length middle)) ++ mjoin middle end).
Proof.
  intros p key vals len x y Ho Ha Hal.
  set (qi := Part key vals (AInfo len x y Incoming)).
  set (qo := Part key vals (AInfo len y x Outgoing)).
  assert (Pi : part_ok p qi) by (split; done).
  assert (Po : part_ok p qo).
  { split; [done|]. destruct Ha as (H1 & H2 & H3 & H4 & H5). simpl in *. split_and!; simpl; auto. lia. }
  exists (kept p qi), (stashed p qi), (kept p qo).
  pose proof (room_sum p vals _ Ha) as Hr.
  assert (Hwr : forall q, part_ok p q -> forall pre buf, kp_page p <= length buf ->
     (ai_mine (pt_ai q) <= Z.of_nat (bucket_size p))%Z ->
     exists bs, encode p (pre ++ buf) (length pre) (pt_key q) (pt_vals q) (pt_ai q)
           = Ok (pre ++ bs ++ drop (length bs) buf, length bs) /\
     (bs = [] /\ kept p q = [] \/ bs = le64 (N.of_nat (length (kept p q))) ++ pt_key q ++ mjoin (kept p q))).
  { intros q Hq pre buf Hb Hx. exists (part_bytes p q).
    assert (length (part_bytes p q) <= length buf).
    { pose proof (part_bytes_le p q Hal Hq). unfold bucket_size in Hx. destruct Hal as (Ht & _).
      pose proof (Nat.div_mod (kp_page p) (kp_val p)). nia. }
    split; [rewrite encode_ok by done; by rewrite <- app_assoc|].
    unfold part_bytes. case_bool_decide as Hm; [left|right; done]. split; [done|].
    apply kept_unwritten. unfold written. lia. }
  split_and!.
  - unfold kept, stashed. simpl. by apply split_exact.
  - intros pre buf Hb Hx. exact (Hwr qi Pi pre buf Hb Hx).
  - intros pre buf Hb Hx. exact (Hwr qo Po pre buf Hb Hx).
  - pose proof (serialize_ok p qi Pi) as E. simpl in E. rewrite E. unfold entry_bytes.
    by destruct (stashed p qi).
Qed.
Print Assumptions C12_split_exact.
(** One part too small to hold the control words, and something left over. *)
Example ex_c12 : obj_ok ex_p (ex_key 1) (ex_val <$> [1;2;3;4]%N) /\
  ai_ok ex_p (ex_val <$> [1;2;3;4]%N) (AInfo 10 2 5 Incoming) /\ aligned ex_p.
Proof. split_and!; try done; repeat constructor; try done; apply le64_length. Qed.

(** ** C13: encryption of the pages. *)
Theorem C13_transparent :
  forall ks ekey p key buf0 i0 w0 buf1 i1 w1 page0 n0 page1 n1 plain0 m0 plain1 m1,
    (forall k n l, length (ks k n l) = l) ->
    length plain0 = kp_page p -> length plain1 = kp_page p ->
    finish_block buf0 w0 (kp_page p - w0) = Ok (plain0, m0) ->
    finish_block buf1 w1 (kp_page p - w1) = Ok (plain1, m1) ->
    enc_finish_block ks ekey p buf0 i0 w0 (kp_page p - w0) = Ok (page0, n0) ->
    enc_finish_block ks ekey p buf1 i1 w1 (kp_page p - w1) = Ok (page1, n1) ->
    length page0 = kp_page p /\ length page1 = kp_page p /\
    dec_decode_buckets ks ekey p key page0 i0 page1 i1 = decode_buckets p key plain0 plain1.
Proof.
  intros ks ekey p key buf0 i0 w0 buf1 i1 w1 page0 n0 page1 n1 plain0 m0 plain1 m1 Hks L0 L1 F0 F1 E0 E1.
  unfold enc_finish_block in *. rewrite F0 in E0. rewrite F1 in E1. simpl in *. simplify_eq.
  rewrite !xor_bytes_length by (rewrite Hks; done). split_and!; auto.
  unfold dec_decode_buckets. rewrite !xor_bytes_involutive by (rewrite Hks; done). done.
Qed.
Print Assumptions C13_transparent.

Lemma build_pages_used sp data g : forall l table used t u,
  build_pages sp data g l table used = Ok (t, u) ->
  u = used ++ mjoin (page_nonces sp <$> l) /\ length t = length table + length l.
Proof.
  induction l as [|i l IH]; intros table used t u H; csimpl in *.
  - simplify_eq. by rewrite app_nil_r, Nat.add_0_r.
  - apply rbind_ok in H as (v & Hv & H). apply rbind_ok in H as ([pg nn] & Hr & H). simpl in H.
    case_bool_decide; [|done]. apply IH in H as [H Ht].
    rewrite app_length in Ht. simpl in Ht. split; [|lia].
    rewrite H, <- app_assoc. do 2 f_equal.
    unfold build_page in Hr. apply rbind_ok in Hr as (r1 & _ & Hr). apply rbind_ok in Hr as (r2 & _ & Hr).
    apply rbind_ok in Hr as ([f nf] & Hf & Hr). case_bool_decide; [done|]. simplify_eq. simpl.
    unfold finish_with in Hf. unfold page_nonces. destruct (sp_cipher sp).
    + apply rbind_ok in Hf as (? & _ & Hf). by simplify_eq.
    + apply rbind_ok in Hf as (? & _ & Hf). by simplify_eq.
Qed.

(** No two pages of a build are encrypted under the same nonce, for any state of
    the builder in which build() returns. *)
Theorem C13_nonces_distinct :
  forall fuel sp b b' f,
    (Z.of_nat (sp_n sp) < 2 ^ 64)%Z -> store_build fuel sp b = (b', Ok f) ->
    NoDup (sf_used f) /\ length (sf_table f) = sp_n sp /\
    match sp_cipher sp with
    | Plain => sf_used f = []
    | Encrypted _ _ => length (sf_used f) = length (sf_table f)
    end.
Proof.
  intros fuel sp b b' f Hn H. unfold store_build in H. destruct (sb_built b); [done|].
  destruct (allocate fuel (sb_alloc b)) as [a| | |]; try done.
  destruct (write_files sp (sb_data b) a) as [f'| | |] eqn:W; simplify_eq.
  assert (U : sf_used f = mjoin (page_nonces sp <$> seq 0 (sp_n sp)) /\ length (sf_table f) = sp_n sp).
  { unfold write_files in W. apply rbind_ok in W as (g & _ & W). apply rbind_ok in W as ([t u] & Ht & W).
    apply rbind_ok in W as (s & _ & W). apply build_pages_used in Ht as [Ht Hl]. simpl in Ht, Hl.
    rewrite <- Ht. rewrite seq_length in Hl.
    case_bool_decide; [apply rbind_ok in W as (? & _ & W)|]; by simplify_eq. }
  destruct U as [U Hl]. rewrite U, Hl. unfold page_nonces. destruct (sp_cipher sp).
  - assert (E : forall l : list nat, mjoin ((λ _ : nat, [] : list bytes) <$> l) = []).
    { induction l; csimpl; auto. }
    rewrite E. split; [constructor|done].
  - assert (E : forall l : list nat, mjoin ((λ v : nat, [nonce_of v]) <$> l) = nonce_of <$> l).
    { induction l as [|x l IHl]; csimpl; [done|]. by rewrite IHl. }
    rewrite E. split; [|split; [done|by rewrite fmap_length, seq_length]].
    assert (Hinj : forall l, NoDup l -> (forall v, v ∈ l -> v < sp_n sp) -> NoDup (nonce_of <$> l)).
    { induction 1 as [|v l Hv Hl' IHl]; intros Hb; csimpl; constructor.
      - intros Hin. apply elem_of_list_fmap in Hin as (w & Hw & Hin).
        assert (v < sp_n sp) by (apply Hb; left). assert (w < sp_n sp) by (apply Hb; by right).
        apply nonce_inj in Hw; [by subst| |]; lia.
      - apply IHl. intros w Hw. apply Hb. by right. }
    apply Hinj; [apply NoDup_seq|]. intros v Hv. apply elem_of_seq in Hv. lia.
Qed.
Print Assumptions C13_nonces_distinct.

(** What is written: page [i] is the page of the unencrypted build, masked by the
    keystream of the nonce [i], for any state of the builder; distinct pages have
    distinct nonces. *)
Lemma build_page_cipher enc n hash ks k data es i v page used :
  build_page (SPar enc n hash (Encrypted ks k)) data es i v = Ok (page, used) ->
  exists plain, build_page (SPar enc n hash Plain) data es i v = Ok (plain, []) /\
    page = xor_bytes (ks k (nonce_of i) (kp_page enc)) plain.
Proof.
  unfold build_page. simpl. intros H. apply rbind_ok in H as (r1 & E1 & H). rewrite E1. simpl.
  apply rbind_ok in H as (r2 & E2 & H). rewrite E2. simpl.
  apply rbind_ok in H as (f & E3 & H). unfold finish_with, enc_finish_block in *. simpl in *.
  apply rbind_ok in E3 as (x & E3 & E4). apply rbind_ok in E3 as (y & E3 & E5). rewrite E3. simpl.
  simplify_eq. simpl in H. case_bool_decide as Hb; [done|]. simplify_eq.
  exists y.1. split; [|done]. rewrite bool_decide_eq_false_2; [done|].
  unfold finish_block in E3. case_bool_decide; [simplify_eq; simpl; lia|].
  apply rbind_ok in E3 as (? & _ & E3). simplify_eq. simpl. lia.
Qed.
Lemma build_pages_cipher enc n hash ks k data g : forall l t1 t2 u t u',
  Forall2 (fun '(i, p1) p2 => p1 = xor_bytes (ks k (nonce_of i) (kp_page enc)) p2)
    (zip (seq 0 (length t1)) t1) t2 ->
  build_pages (SPar enc n hash (Encrypted ks k)) data g l t1 u = Ok (t, u') ->
  exists tp, build_pages (SPar enc n hash Plain) data g l t2 [] = Ok (tp, []) /\
    Forall2 (fun '(i, p1) p2 => p1 = xor_bytes (ks k (nonce_of i) (kp_page enc)) p2)
      (zip (seq 0 (length t)) t) tp.
Proof.
  induction l as [|i l IH]; intros t1 t2 u t u' HF H; simpl in *.
  - simplify_eq. eauto.
  - apply rbind_ok in H as (v & Hv & H). rewrite Hv. simpl.
    apply rbind_ok in H as ([page used] & Hp & H). simpl in H.
    apply build_page_cipher in Hp as (plain & Hp & ->). rewrite Hp. simpl.
    assert (HL : length t2 = length t1).
    { apply Forall2_length in HF. rewrite zip_with_length, seq_length in HF. lia. }
    case_bool_decide as Hi; [|done]. rewrite HL, bool_decide_eq_true_2 by done.
    eapply IH; [|exact H]. rewrite app_length. simpl. rewrite seq_app, zip_with_app by by rewrite seq_length.
    apply Forall2_app; [done|]. simpl. rewrite Hi. by repeat constructor.
Qed.
Theorem C13_pages :
  forall fuel enc n hash ks k b b' f,
    (Z.of_nat n < 2 ^ 64)%Z ->
    store_build fuel (SPar enc n hash (Encrypted ks k)) b = (b', Ok f) ->
    exists b2 fp nonces,
      store_build fuel (SPar enc n hash Plain) b = (b2, Ok fp) /\
      sf_stash f = sf_stash fp /\
      length (sf_table fp) = n /\ length nonces = n /\ NoDup nonces /\
      sf_table f = zip_with (fun nc plain => xor_bytes (ks k nc (kp_page enc)) plain) nonces (sf_table fp) /\
      nonces = nonce_of <$> seq 0 n.
Proof.
  intros fuel enc n hash ks k b b' f Hn H.
  pose proof (C13_nonces_distinct fuel (SPar enc n hash (Encrypted ks k)) b b' f Hn H) as (_ & HL & _). simpl in HL.
  unfold store_build in H |- *. destruct (sb_built b); [done|].
  destruct (allocate fuel (sb_alloc b)) as [a| | |]; try done.
  destruct (write_files _ (sb_data b) a) as [f'| | |] eqn:W in H; try done. injection H as Hb' Hf'. subst b' f'.
  unfold write_files in *. simpl in W |- *.
  apply rbind_ok in W as (g & Eg & W). rewrite Eg. simpl.
  apply rbind_ok in W as ([t u] & Et & W).
  edestruct (build_pages_cipher enc n hash ks k (sb_data b) g (seq 0 n) [] []) as (tp & Etp & HF);
    [constructor|exact Et|].
  unfold build_pages in Etp |- *. rewrite Etp. simpl.
  apply rbind_ok in W as (s & Es & W). rewrite Es. simpl.
  assert (E : sf_table f = t /\ forall X Y, (if bool_decide (0 < length s) then
     b <~ build_stash enc (sb_data b) (g_edges g) s; Ok (SFiles X (Some b) Y) else Ok (SFiles X None Y)) =
     Ok (SFiles X (sf_stash f) Y)).
  { case_bool_decide; [apply rbind_ok in W as (bb & Eb & W); rewrite Eb|]; injection W as <-; done. }
  destruct E as [E1 E2]. rewrite E2. rewrite E1 in HL |- *. rewrite HL in HF.
  assert (HN : NoDup (nonce_of <$> seq 0 n)).
  { assert (Hinj : forall l, NoDup l -> (forall v, v ∈ l -> v < n) -> NoDup (nonce_of <$> l)).
    { induction 1 as [|v l Hv Hl' IHl]; intros Hb; csimpl; constructor.
      - intros Hin. apply elem_of_list_fmap in Hin as (w & Hw & Hin).
        assert (v < n) by (apply Hb; left). assert (w < n) by (apply Hb; by right).
        apply nonce_inj in Hw; [by subst| |]; lia.
      - apply IHl. intros w Hw. apply Hb. by right. }
    apply Hinj; [apply NoDup_seq|]. intros v Hv. apply elem_of_seq in Hv. lia. }
  eexists _, _, _. split; [done|]. simpl. split; [done|].
  assert (HLp : length tp = n).
  { apply Forall2_length in HF. rewrite zip_with_length, seq_length, HL in HF. lia. }
  split; [done|]. split; [|split; [exact HN|split; [|done]]].
  - by rewrite fmap_length, seq_length.
  - clear -HF HL. revert HF HL. generalize 0. revert n tp.
    induction t as [|p t IH]; intros n tp j HF HL; simpl in *; subst n; simpl in *.
    + by apply Forall2_nil_inv_l in HF as ->.
    + apply Forall2_cons_inv_l in HF as (q & tp' & Hq & HF & ->). csimpl. f_equal; [done|].
      by apply (IH (length t) tp' (S j)).
Qed.
Print Assumptions C13_pages.

(** A keystream that depends on all its arguments, and an encrypted table. *)
Definition ex_ks (k n : bytes) (l : nat) : bytes :=
  (fun i => N.modulo (le_val k + 3 * le_val n + 7 * N.of_nat i) 256) <$> seq 0 l.
Example ex_ks_length : forall k n l, length (ex_ks k n l) = l.
Proof. intros. unfold ex_ks. by rewrite fmap_length, seq_length. Qed.
Definition ex_sp : sparams := SPar ex_p 4 (fun k => (le_val k, le_val k)) (Encrypted ex_ks [1%N; 2%N]).
Definition ex_kvs : list (bytes * list bytes) :=
  [(ex_key 1, ex_val <$> [1;2;3;4;5;6;7;8;9]%N); (ex_key 2, ex_val <$> [11;12]%N);
   (ex_key 3, ex_val <$> [21;22;23;24;25;26;27;28;29;30]%N)].
Example ex_c13 : exists b0 b f, new_store_builder ex_sp = Ok b0 /\
  store_build 1000 ex_sp (run_inserts ex_sp b0 ex_kvs).1 = (b, Ok f) /\ length (sf_used f) = 4.
Proof. eexists _, _, _. split; [by vm_compute|]. split; [by vm_compute|]. by vm_compute. Qed.

(** ** C14: the stash file. *)
Theorem C14_stash_roundtrip :
  forall p qs,
    Forall (part_ok p) qs -> NoDup (pt_key <$> qs) ->
    exists file m, serialize_parts p qs = Ok file /\ deserialize_map p file = Ok m /\
      forall k, m !! k = lookup_stash p k qs.
Proof. exact stash_roundtrip. Qed.
Print Assumptions C14_stash_roundtrip.
Definition ex_stash : list part :=
  [Part (ex_key 1) (ex_val <$> [1;2;3;4]%N) (AInfo 10 5 2 Incoming);
   Part (ex_key 2) (ex_val <$> [5;6]%N) (AInfo 8 7 1 Incoming);
   Part (ex_key 3) (ex_val <$> [7;8;9]%N) (AInfo 9 0 0 Incoming)].
Example ex_stash_ok : Forall (part_ok ex_p) ex_stash /\ NoDup (pt_key <$> ex_stash) /\
  (fun k => lookup_stash ex_p (ex_key k) ex_stash) <$> [1;2;3;4]%N =
  [Some (ex_val <$> [3;4]%N); None; Some (ex_val <$> [7;8;9]%N); None].
Proof.
  split_and!; [repeat constructor; try done; apply le64_length| |by vm_compute].
  apply (bool_decide_unpack _). by vm_compute.
Qed.
