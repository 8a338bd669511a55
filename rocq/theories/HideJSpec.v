(** What the server of Janus sees, and what it must not learn. *)
From stdpp Require Import prelude gmap.
From Coq Require Import NArith.
From Verif Require Import Base EncModel KvModel UtilsModel DianaModel DianaSpec JanusModel JanusSpec HideDSpec.

(** A history: insertions and removals (the request may be lost on the way to the server)
    and searches. *)
Inductive jh_op :=
| HIns (kw : bytes) (index : N) (delivered : bool)
| HRem (kw : bytes) (index : N) (delivered : bool)
| HFind (kw : bytes).

(** Janus with other generators for its two instances of Diana. *)
Definition with_gens (S : janus) (gi gd : bytes -> bytes) : janus :=
  Janus (with_prg (jn_ins S) gi) (with_prg (jn_del S) gd) (jn_kwtok S) (jn_tag S) (jn_pekey S)
    (pe_enc S) (pe_share0 S) (pe_punct S) (pe_share_tag S) (pe_ct_tag S) (pe_dec S) (jn_tagsize S).

(** What the server sees: the updates (delivered or not), and for each search the four parts
    of the request, what the two instances of Diana answer, and the result. *)
Inductive j_seen (S : janus) :=
| JSeenIns (u : d_update)
| JSeenRem (u : d_update)
| JSeenFind (token share : bytes)
    (ins_token : bytes) (ins_con : option (d_con (jn_ins S))) (ins_count : N) (ciphertexts : res (list bytes))
    (del_token : bytes) (del_con : option (d_con (jn_del S))) (del_count : N) (key_shares : res (list bytes))
    (answer : res (list N)).
Arguments JSeenIns {_}.
Arguments JSeenRem {_}.
Fixpoint j_view (S : janus) (gi gd : bytes -> bytes) (c : j_client) (s : j_server) (ops : list jh_op) : list (j_seen S) :=
  let S' := with_gens S gi gd in
  match ops with
  | [] => []
  | HIns kw i d :: ops' =>
      let r := j_insertion_request S' c kw i in
      JSeenIns r.2 :: j_view S gi gd r.1 (if d : bool then j_insert s r.2 else s) ops'
  | HRem kw i d :: ops' =>
      let r := j_removal_request S' c kw i in
      JSeenRem r.2 :: j_view S gi gd r.1 (if d : bool then j_remove s r.2 else s) ops'
  | HFind kw :: ops' =>
      let r := j_search_request S' c kw in
      let a := j_server_search S' s r.2 in
      @JSeenFind S (jr_token r.2) (jr_share r.2)
        (ds_token (jr_ins r.2)) (ds_con (jr_ins r.2)) (ds_count (jr_ins r.2))
        (x <~ d_server_search_list (jn_ins S') (js_ins s) (jr_ins r.2) true; Ok x.2)
        (ds_token (jr_del r.2)) (ds_con (jr_del r.2)) (ds_count (jr_del r.2))
        (x <~ d_server_search_list (jn_del S') (js_del s) (jr_del r.2) true; Ok x.2)
        (x <~ a; Ok x.2) ::
      match a with Ok x => j_view S gi gd r.1 x.1 ops' | _ => [] end
  end.

(** What the scheme reveals on purpose: insertions, removals and searches at the same places,
    and the same insertions and removals of the keywords that are searched later. *)
Fixpoint j_same_leakage (h h' : list jh_op) : Prop :=
  match h, h' with
  | [], [] => True
  | HFind kw :: t, HFind kw' :: t' => kw = kw' /\ j_same_leakage t t'
  | HIns kw i d :: t, HIns kw' i' d' :: t' | HRem kw i d :: t, HRem kw' i' d' :: t' =>
      d = d' /\ (HFind kw ∈ t \/ HFind kw' ∈ t' -> kw = kw' /\ i = i') /\ j_same_leakage t t'
  | _, _ => False
  end.

(** The history without the deliveries, and what the two instances of Diana are asked:
    keywords joined with the number of the epoch, ciphertexts and key shares (the first two
    of an epoch get the same number). *)
Definition to_j (o : jh_op) : j_op :=
  match o with HIns kw i _ => JIns kw i | HRem kw i _ => JRem kw i | HFind kw => JFind kw end.
Definition epoch_kw (h : j_hist) (kw : bytes) : bytes := meta_keyword kw (jh_epoch h kw).
Fixpoint ins_ops (S : janus) (h : j_hist) (ops : list jh_op) : list d_op :=
  match ops with
  | [] => []
  | o :: ops' =>
      match o with
      | HIns kw i d =>
          [DIns (epoch_kw h kw) (pe_enc S (jn_pekey S (epoch_kw h kw)) i (jn_tag S (keyword_doc_string kw i))) d]
      | HRem _ _ _ => []
      | HFind kw => [DFind (epoch_kw h kw) true]
      end ++ ins_ops S (j_hist_step h (to_j o)) ops'
  end.
Fixpoint del_ops (S : janus) (h : j_hist) (ops : list jh_op) : list d_op :=
  match ops with
  | [] => []
  | o :: ops' =>
      match o with
      | HIns _ _ _ => []
      | HRem kw i d =>
          [DIns (epoch_kw h kw)
             (pe_punct S (jn_pekey S (epoch_kw h kw)) (N.of_nat (max 1 (length (jh_rem h kw (jh_epoch h kw)))))
                (jn_tag S (keyword_doc_string kw i))) d]
      | HFind kw => [DFind (epoch_kw h kw) true]
      end ++ del_ops S (j_hist_step h (to_j o)) ops'
  end.

(** Assumed of the cryptography: the constrained PRFs, and the sizes of the ciphertexts and of
    the key shares. *)
Definition j_hide_ok (S : janus) : Prop :=
  rcprf_ok (jn_ins S) /\ rcprf_ok (jn_del S) /\
  (forall key i x, length (pe_enc S key i (jn_tag S x)) = d_len (jn_ins S) /\
     Forall (fun b => (b < 256)%N) (pe_enc S key i (jn_tag S x))) /\
  (forall key n x, length (pe_punct S key n (jn_tag S x)) = d_len (jn_del S) /\
     Forall (fun b => (b < 256)%N) (pe_punct S key n (jn_tag S x))).
(** No two insertions, no two removals use the same leaf value. *)
Definition j_distinct_leaves (S : janus) (h : list jh_op) : Prop :=
  distinct_leaves (jn_ins S) (ins_ops S j_hist0 h) /\ distinct_leaves (jn_del S) (del_ops S j_hist0 h).
(** Leaves of the insertions, of the removals, that come after the last search of their
    keyword. *)
Definition j_hidden_ins (S : janus) (h : list jh_op) (st : bytes) : Prop :=
  exists p kw i d q n, h = p ++ HIns kw i d :: q /\ HFind kw ∉ q /\
    let hs := foldl j_hist_step j_hist0 (to_j <$> p) in
    n = jh_ins hs kw (jh_epoch hs kw) /\ st = kw_leaf (jn_ins S) (epoch_kw hs kw) n.
Definition j_hidden_rem (S : janus) (h : list jh_op) (st : bytes) : Prop :=
  exists p kw i d q n, h = p ++ HRem kw i d :: q /\ HFind kw ∉ q /\
    let hs := foldl j_hist_step j_hist0 (to_j <$> p) in
    n = length (jh_rem hs kw (jh_epoch hs kw)) /\ st = kw_leaf (jn_del S) (epoch_kw hs kw) n.
