(** What Diana must do. *)
From stdpp Require Import prelude gmap.
From Coq Require Import NArith Lia.
From Verif Require Import Base EncModel KvModel DianaModel.

(** A history: single insertions, bulk insertions (each request may be lost on the way
    to the server) and searches, which may delete what they return. *)
Inductive d_op :=
| DIns (kw doc : bytes) (delivered : bool)
| DBulk (l : list (bytes * bytes * bool))
| DFind (kw : bytes) (delete_results : bool).

(** The insertions of each keyword, oldest first; [None] if the request was lost or if
    the document was deleted by a search. *)
Definition slots := bytes -> list (option bytes).
Definition add_slot (s : slots) (kw doc : bytes) (delivered : bool) : slots :=
  fun k => if decide (k = kw) then s k ++ [if delivered then Some doc else None] else s k.
Definition empty_slots (s : slots) (kw : bytes) : slots :=
  fun k => if decide (k = kw) then (fun _ => None) <$> s k else s k.
Definition op_slots (s : slots) (o : d_op) : slots :=
  match o with
  | DIns kw doc d => add_slot s kw doc d
  | DBulk l => foldl (fun s x => add_slot s x.1.1 x.1.2 x.2) s l
  | DFind kw del => if del then empty_slots s kw else s
  end.
(** The documents that a search returns, in insertion order. *)
Definition contents (s : slots) (kw : bytes) : list bytes := omap id (s kw).
Fixpoint d_answers (s : slots) (ops : list d_op) : list (list bytes) :=
  match ops with
  | [] => []
  | o :: ops' =>
      match o with DFind kw _ => contents s kw :: d_answers (op_slots s o) ops' | _ => d_answers (op_slots s o) ops' end
  end.
Definition no_slots : slots := fun _ => [].
Definition all_slots (h : list d_op) : slots := foldl op_slots no_slots h.

(** Running the client and the server. *)
Definition deliver (db : gmap bytes bytes) (l : list (d_update * bool)) : gmap bytes bytes :=
  foldl (fun db x => if x.2 : bool then d_insert db x.1 else db) db l.
Fixpoint d_run (D : diana) (c : counters) (db : gmap bytes bytes) (ops : list d_op) : res (list (list bytes)) :=
  match ops with
  | [] => Ok []
  | DIns kw doc d :: ops' =>
      let r := d_insertion_request D c kw doc in
      d_run D r.1 (deliver db [(r.2, d)]) ops'
  | DBulk l :: ops' =>
      let r := d_bulk_request D c (l.*1) in
      d_run D r.1 (deliver db (zip r.2 (l.*2))) ops'
  | DFind kw del :: ops' =>
      r <~ d_server_search_list D db (d_search_request D c kw) del;
      rs <~ d_run D c r.1 ops';
      Ok (r.2 :: rs)
  end.

(** What is assumed of the cryptography: the PRF constrained to the leaves up to [n]
    agrees with the PRF on them, and the generator gives as many bytes as asked. *)
Record d_crypto_ok (D : diana) : Prop := {
  dc_max : forall k n, d_max_leaf D (d_constrain D k 0 n) = n;
  dc_eval : forall k n i, (i <= n)%N -> d_eval D (d_constrain D k 0 n) i = d_leaf D k i;
  dc_prg : forall st off len, length (d_prg D st off len) = len }.
(** Update token of the i-th insertion of a keyword. *)
Definition d_update_token (D : diana) (kw : bytes) (i : nat) : bytes :=
  d_prg D (d_leaf D (d_root D (take 16 (d_hash D kw))) (N.of_nat i)) 0 16.
Definition d_no_collision (D : diana) (s : slots) : Prop :=
  forall kw i kw' i', i < length (s kw) -> i' < length (s kw') ->
    d_update_token D kw i = d_update_token D kw' i' -> kw = kw' /\ i = i'.
(** Fewer insertions per keyword than the counters allow. *)
Definition d_few (s : slots) : Prop := forall kw, (N.of_nat (length (s kw)) < 2 ^ 32)%N.
(** All documents have the size of the type. *)
Definition docs_ok (D : diana) (h : list d_op) : Prop :=
  Forall (fun o => match o with
    | DIns _ doc _ => length doc = d_len D
    | DBulk l => Forall (fun x => length x.1.2 = d_len D) l
    | DFind _ _ => True end) h.

(** *** Searches of arbitrary databases *)
(** A request as the client makes them. *)
Definition well_formed {D : diana} (req : d_search D) : Prop :=
  ds_count req = 0%N \/ exists con, ds_con req = Some con /\ ds_count req = (d_max_leaf D con + 1)%N.
Definition leaf_token (D : diana) (con : d_con D) (i : nat) : bytes := d_prg D (d_eval D con (N.of_nat i)) 0 16.
(** The tokens that the request gives access to. *)
Definition request_tokens {D : diana} (req : d_search D) : list bytes :=
  match ds_con req with Some con => leaf_token D con <$> seq 0 (N.to_nat (ds_count req)) | None => [] end.
(** The document behind leaf [i] of the request, if any. *)
Definition leaf_doc (D : diana) (db : gmap bytes bytes) (con : d_con D) (i : nat) : option bytes :=
  (fun v => zip_with N.lxor v (d_prg D (d_eval D con (N.of_nat i)) 16 (d_len D))) <$> db !! leaf_token D con i.
Definition request_docs {D : diana} (db : gmap bytes bytes) (req : d_search D) : list (option bytes) :=
  match ds_con req with Some con => leaf_doc D db con <$> seq 0 (N.to_nat (ds_count req)) | None => [] end.
(** The database without some tokens. *)
Definition without (ts : list bytes) (db : gmap bytes bytes) : gmap bytes bytes := foldr delete db ts.

(** State of the client and of the server after a history. *)
Fixpoint d_final (D : diana) (c : counters) (db : gmap bytes bytes) (ops : list d_op) : res (counters * gmap bytes bytes) :=
  match ops with
  | [] => Ok (c, db)
  | DIns kw doc d :: ops' =>
      let r := d_insertion_request D c kw doc in
      d_final D r.1 (deliver db [(r.2, d)]) ops'
  | DBulk l :: ops' =>
      let r := d_bulk_request D c (l.*1) in
      d_final D r.1 (deliver db (zip r.2 (l.*2))) ops'
  | DFind kw del :: ops' =>
      r <~ d_server_search_list D db (d_search_request D c kw) del;
      d_final D c r.1 ops'
  end.
(** The documents inserted for a keyword, in order. *)
Definition inserted (kw : bytes) (h : list d_op) : list bytes :=
  h ≫= fun o => match o with
    | DIns kw' doc _ => if decide (kw' = kw) then [doc] else []
    | DBulk l => l ≫= fun x => if decide (x.1.1 = kw) then [x.1.2] else []
    | DFind _ _ => [] end.
(** Nothing is lost, nothing is deleted. *)
Definition nothing_lost (h : list d_op) : Prop :=
  Forall (fun o => match o with
    | DIns _ _ d => d = true
    | DBulk l => Forall (fun x => x.2 = true) l
    | DFind _ del => del = false end) h.
