(** What Janus must do. *)
From stdpp Require Import prelude gmap.
From Coq Require Import NArith Lia.
From Verif Require Import Base EncModel KvModel UtilsModel DianaModel DianaSpec JanusModel.

(** A history.  [JLost]: the client makes a search request that is never processed. *)
Inductive j_op :=
| JIns (kw : bytes) (index : N)
| JRem (kw : bytes) (index : N)
| JFind (kw : bytes)
| JFindPar (kw : bytes) (threads_count : N)
| JLost (kw : bytes).

(** The documents that a search must return: those inserted and not removed since. *)
Definition j_docs_step (docs : bytes -> list N) (o : j_op) : bytes -> list N :=
  match o with
  | JIns kw i => fun k => if decide (k = kw) then docs k ++ [i] else docs k
  | JRem kw i => fun k => if decide (k = kw) then filter (fun j => j <> i) (docs k) else docs k
  | _ => docs
  end.
Fixpoint j_answers (docs : bytes -> list N) (ops : list j_op) : list (list N) :=
  match ops with
  | [] => []
  | o :: ops' =>
      match o with
      | JFind kw | JFindPar kw _ => docs kw :: j_answers (j_docs_step docs o) ops'
      | _ => j_answers (j_docs_step docs o) ops'
      end
  end.

(** Executions of the client and the server: the answers of the searches, and the final
    state. *)
Inductive j_run (S : janus) : j_client -> j_server -> list j_op -> list (list N) -> j_client -> j_server -> Prop :=
| jr_nil c s : j_run S c s [] [] c s
| jr_insert c s kw i ops ans c' s' :
    j_run S (j_insertion_request S c kw i).1 (j_insert s (j_insertion_request S c kw i).2) ops ans c' s' ->
    j_run S c s (JIns kw i :: ops) ans c' s'
| jr_remove c s kw i ops ans c' s' :
    j_run S (j_removal_request S c kw i).1 (j_remove s (j_removal_request S c kw i).2) ops ans c' s' ->
    j_run S c s (JRem kw i :: ops) ans c' s'
| jr_find c s kw s1 a ops ans c' s' :
    j_server_search S s (j_search_request S c kw).2 = Ok (s1, a) ->
    j_run S (j_search_request S c kw).1 s1 ops ans c' s' ->
    j_run S c s (JFind kw :: ops) (a :: ans) c' s'
| jr_find_par c s kw n f0 f s1 calls ops ans c' s' :
    j_par_start S s (j_search_request S c kw).2 n = Ok f0 ->
    rtc (d_step (jn_del S) true) f0 f -> d_finished f ->
    j_par_finish S s (j_search_request S c kw).2 n f = Ok (s1, calls) ->
    j_run S (j_search_request S c kw).1 s1 ops ans c' s' ->
    j_run S c s (JFindPar kw n :: ops) (j_par_list n calls :: ans) c' s'
| jr_lost c s kw ops ans c' s' :
    j_run S (j_search_request S c kw).1 s ops ans c' s' ->
    j_run S c s (JLost kw :: ops) ans c' s'.
Definition j_new_client : j_client := JClient ∅ ∅ ∅.
Definition j_new_server : j_server := JServer ∅ ∅ ∅.

(** Number of the current epoch of each keyword (an epoch ends with a search, if
    something was inserted or removed in it), number of insertions and documents removed
    in each epoch. *)
Record j_hist := JHist { jh_epoch : bytes -> N; jh_ins : bytes -> N -> nat; jh_rem : bytes -> N -> list N }.
Definition j_hist0 : j_hist := JHist (fun _ => 0%N) (fun _ _ => 0) (fun _ _ => []).
(** Nothing inserted or removed in the current epoch. *)
Definition quiet (h : j_hist) (kw : bytes) : Prop :=
  jh_ins h kw (jh_epoch h kw) = 0 /\ jh_rem h kw (jh_epoch h kw) = [].
Global Instance quiet_dec h kw : Decision (quiet h kw).
Proof. unfold quiet. apply _. Defined.
Definition j_hist_step (h : j_hist) (o : j_op) : j_hist :=
  match o with
  | JIns kw i => JHist (jh_epoch h)
      (fun k e => if decide (k = kw /\ e = jh_epoch h kw) then Datatypes.S (jh_ins h k e) else jh_ins h k e) (jh_rem h)
  | JRem kw i => JHist (jh_epoch h) (jh_ins h)
      (fun k e => if decide (k = kw /\ e = jh_epoch h kw) then jh_rem h k e ++ [i] else jh_rem h k e)
  | JFind kw | JFindPar kw _ | JLost kw =>
      if decide (quiet h kw) then h
      else JHist (fun k => if decide (k = kw) then (jh_epoch h k + 1)%N else jh_epoch h k) (jh_ins h) (jh_rem h)
  end.

(** The histories on which Janus is correct: in each epoch, at most one removal per
    keyword, and no insertion of a document already removed in the same epoch; requests
    are lost only when nothing has happened in the epoch. *)
Definition j_op_ok (h : j_hist) (o : j_op) : Prop :=
  match o with
  | JIns kw i => (i < 2 ^ 64)%N /\ i ∉ jh_rem h kw (jh_epoch h kw)
  | JRem kw i => (i < 2 ^ 64)%N /\ jh_rem h kw (jh_epoch h kw) = []
  | JFind kw => True
  | JFindPar kw n => (0 < n < 256)%N
  | JLost kw => quiet h kw
  end.
Fixpoint j_ok (h : j_hist) (ops : list j_op) : Prop :=
  match ops with [] => True | o :: ops' => j_op_ok h o /\ j_ok (j_hist_step h o) ops' end.

(** What Janus really does, when each keyword is removed from at most once per epoch: the
    documents stored in the cache at the last search and the insertions of the current
    epoch; a removal hides the document until the end of the epoch, and a lost request
    drops the insertions and the removals of the epoch. *)
Record j_act := JAct { ja_stored : bytes -> list N; ja_pending : bytes -> list N }.
Definition j_act0 : j_act := JAct (fun _ => []) (fun _ => []).
Definition ja_docs (a : j_act) (h : j_hist) (kw : bytes) : list N :=
  filter (fun i => i ∉ jh_rem h kw (jh_epoch h kw)) (ja_stored a kw ++ ja_pending a kw).
Definition j_act_step (a : j_act) (h : j_hist) (o : j_op) : j_act :=
  match o with
  | JIns kw i => JAct (ja_stored a) (fun k => if decide (k = kw) then ja_pending a k ++ [i] else ja_pending a k)
  | JRem kw i => a
  | JFind kw | JFindPar kw _ =>
      JAct (fun k => if decide (k = kw) then ja_docs a h k else ja_stored a k)
           (fun k => if decide (k = kw) then [] else ja_pending a k)
  | JLost kw => JAct (ja_stored a) (fun k => if decide (k = kw) then [] else ja_pending a k)
  end.
Fixpoint j_actual (a : j_act) (h : j_hist) (ops : list j_op) : list (list N) :=
  match ops with
  | [] => []
  | o :: ops' =>
      match o with
      | JFind kw | JFindPar kw _ => ja_docs a h kw :: j_actual (j_act_step a h o) (j_hist_step h o) ops'
      | _ => j_actual (j_act_step a h o) (j_hist_step h o) ops'
      end
  end.
Definition j_op_ok1 (h : j_hist) (o : j_op) : Prop :=
  match o with
  | JIns kw i => (i < 2 ^ 64)%N
  | JRem kw i => (i < 2 ^ 64)%N /\ jh_rem h kw (jh_epoch h kw) = []
  | JFindPar kw n => (0 < n < 256)%N
  | JFind kw | JLost kw => True
  end.
Fixpoint j_ok1 (h : j_hist) (ops : list j_op) : Prop :=
  match ops with [] => True | o :: ops' => j_op_ok1 h o /\ j_ok1 (j_hist_step h o) ops' end.

(** Documents and keywords that occur in a history. *)
Definition op_kw (o : j_op) : bytes :=
  match o with JIns kw _ | JRem kw _ | JFind kw | JFindPar kw _ | JLost kw => kw end.
Definition op_docs (kw : bytes) (o : j_op) : list N :=
  match o with JIns k i | JRem k i => if decide (k = kw) then [i] else [] | _ => [] end.

(** What is assumed of the cryptography: correctness of puncturable encryption, sizes. *)
Record j_crypto_ok (S : janus) : Prop := {
  jk_ins : d_crypto_ok (jn_ins S);
  jk_del : d_crypto_ok (jn_del S);
  jk_dec : forall key tags m t, (m < 2 ^ 64)%N -> Forall (fun t => length t = jn_tagsize S) tags -> length t = jn_tagsize S ->
    pe_dec S (pe_share0 S key (N.of_nat (length tags)) ::
              imap (fun j tag => pe_punct S key (N.of_nat j + 1) tag) tags) (pe_enc S key m t) =
      if decide (t ∈ tags) then None else Some m;
  jk_ct_tag : forall key m t, length t = jn_tagsize S -> pe_ct_tag S (pe_enc S key m t) = t;
  jk_share_tag : forall key d t, length t = jn_tagsize S -> pe_share_tag S (pe_punct S key d t) = t;
  jk_ct_len : forall key m t, length t = jn_tagsize S -> length (pe_enc S key m t) = d_len (jn_ins S);
  jk_share_len : forall key d t, length t = jn_tagsize S -> length (pe_punct S key d t) = d_len (jn_del S);
  jk_tag_len : forall x, length (jn_tag S x) = jn_tagsize S;
  jk_tag_size : 8 <= jn_tagsize S }.
(** No collision among the values used in the history, and no counter overflow. *)
Record j_no_collision (S : janus) (ops : list j_op) : Prop := {
  jx_tag : forall kw i i', i ∈ ops ≫= op_docs kw -> i' ∈ ops ≫= op_docs kw -> j_tag S kw i = j_tag S kw i' -> i = i';
  jx_kw : forall kw kw', kw ∈ op_kw <$> ops -> kw' ∈ op_kw <$> ops -> jn_kwtok S kw = jn_kwtok S kw' -> kw = kw';
  jx_ins : let h := foldl j_hist_step j_hist0 ops in forall kw e i kw' e' i',
    i < jh_ins h kw e -> i' < jh_ins h kw' e' ->
    d_update_token (jn_ins S) (meta_keyword kw e) i = d_update_token (jn_ins S) (meta_keyword kw' e') i' ->
    kw = kw' /\ e = e' /\ i = i';
  jx_del : let h := foldl j_hist_step j_hist0 ops in forall kw e i kw' e' i',
    i < length (jh_rem h kw e) -> i' < length (jh_rem h kw' e') ->
    d_update_token (jn_del S) (meta_keyword kw e) i = d_update_token (jn_del S) (meta_keyword kw' e') i' ->
    kw = kw' /\ e = e' /\ i = i';
  jx_few : (N.of_nat (length ops) < 2 ^ 32)%N }.

(** The types of the library: documents are uint64_t, tags are arrays of kTagSize bytes,
    kTagSize is at least 8. *)
Record j_types_ok (S : janus) : Prop := {
  jt_doc : forall shares ct r, pe_dec S shares ct = Some r -> (r < 2 ^ 64)%N;
  jt_tag : forall ct, length (pe_ct_tag S ct) = jn_tagsize S;
  jt_size : 8 <= jn_tagsize S }.
(** A search for a keyword, sequential or parallel. *)
Definition finds (kw : bytes) (o : j_op) : Prop :=
  o = JFind kw \/ exists n, (0 < n)%N /\ o = JFindPar kw n.
