(** What the server of Diana sees, and what it must not learn. *)
From stdpp Require Import prelude gmap.
From Coq Require Import NArith.
From Verif Require Import Base EncModel KvModel DianaModel DianaSpec.

(** A generator: [n] bytes from a leaf. *)
Definition prg_ok (n : nat) (g : bytes -> bytes) : Prop :=
  forall st, length (g st) = n /\ Forall (fun b => (b < 256)%N) (g st).
(** [there] and [back] are inverse bijections of the generators. *)
Definition prg_bijection (n : nat) (there back : (bytes -> bytes) -> bytes -> bytes) : Prop :=
  (forall g, prg_ok n g -> prg_ok n (there g) /\ prg_ok n (back g)) /\
  (forall g, prg_ok n g -> forall st, back (there g) st = g st /\ there (back g) st = g st).

(** Diana with another generator. *)
Definition with_prg (D : diana) (g : bytes -> bytes) : diana :=
  Diana (d_hash D) (d_root D) (d_kwtok D) (d_leaf D) (d_con D) (d_constrain D) (d_max_leaf D) (d_eval D)
    (fun st off len => take len (drop off (g st))) (d_len D).

(** What the server sees: the updates of each insertion (delivered or not), the search
    requests with their answers. *)
Inductive d_seen (D : diana) :=
| DSeenUpdates (l : list d_update)
| DSeenSearch (token : bytes) (con : option (d_con D)) (count : N) (answers : res (list bytes)).
Arguments DSeenUpdates {_}.
Arguments DSeenSearch {_}.
Fixpoint d_view (D : diana) (g : bytes -> bytes) (c : counters) (db : gmap bytes bytes) (ops : list d_op) : list (d_seen D) :=
  match ops with
  | [] => []
  | DIns kw doc d :: ops' =>
      let r := d_insertion_request (with_prg D g) c kw doc in
      DSeenUpdates [r.2] :: d_view D g r.1 (deliver db [(r.2, d)]) ops'
  | DBulk l :: ops' =>
      let r := d_bulk_request (with_prg D g) c (l.*1) in
      DSeenUpdates r.2 :: d_view D g r.1 (deliver db (zip r.2 (l.*2))) ops'
  | DFind kw del :: ops' =>
      let req := d_search_request (with_prg D g) c kw in
      let r := d_server_search_list (with_prg D g) db req del in
      @DSeenSearch D (ds_token req) (ds_con req) (ds_count req) (x <~ r; Ok x.2) ::
      match r with Ok x => d_view D g c x.1 ops' | _ => [] end
  end.

(** A keyword is searched. *)
Definition searched (kw : bytes) (h : list d_op) : Prop := exists del, DFind kw del ∈ h.
(** What the scheme reveals on purpose: searches and insertions at the same places, and the
    same insertions of the keywords that are searched later. *)
Fixpoint d_same_leakage (h h' : list d_op) : Prop :=
  match h, h' with
  | [], [] => True
  | DFind kw del :: t, DFind kw' del' :: t' => kw = kw' /\ del = del' /\ d_same_leakage t t'
  | DIns kw doc d :: t, DIns kw' doc' d' :: t' =>
      d = d' /\ (searched kw t \/ searched kw' t' -> kw = kw' /\ doc = doc') /\ d_same_leakage t t'
  | DBulk l :: t, DBulk l' :: t' =>
      Forall2 (fun x x' => x.2 = x'.2 /\ (searched x.1.1 t \/ searched x'.1.1 t' -> x.1 = x'.1)) l l' /\ d_same_leakage t t'
  | _, _ => False
  end.

(** The insertions and the searches, one by one. *)
Inductive atom := AIns (kw doc : bytes) | AFind (kw : bytes).
Definition d_atoms (h : list d_op) : list atom :=
  h ≫= fun o => match o with
    | DIns kw doc _ => [AIns kw doc]
    | DBulk l => (fun x : bytes * bytes * bool => AIns x.1.1 x.1.2) <$> l
    | DFind kw _ => [AFind kw]
    end.
(** Number of insertions of a keyword. *)
Definition a_count (kw : bytes) (l : list atom) : nat :=
  length (omap (fun a => match a with AIns k _ => if decide (k = kw) then Some tt else None | AFind _ => None end) l).
(** The [n]-th insertion of [kw] comes after the last search of [kw]. *)
Definition d_hidden (h : list d_op) (kw : bytes) (n : nat) : Prop :=
  exists p doc q, d_atoms h = p ++ AIns kw doc :: q /\ a_count kw p = n /\ AFind kw ∉ q.
(** The leaf of that insertion. *)
Definition kw_leaf (D : diana) (kw : bytes) (n : nat) : bytes :=
  d_leaf D (d_root D (take 16 (d_hash D kw))) (N.of_nat n).
Definition hidden_leaf (D : diana) (h : list d_op) (st : bytes) : Prop :=
  exists kw n, d_hidden h kw n /\ st = kw_leaf D kw n.
(** No two insertions use the same leaf value. *)
Definition distinct_leaves (D : diana) (h : list d_op) : Prop :=
  forall kw n kw' n', n < a_count kw (d_atoms h) -> n' < a_count kw' (d_atoms h) ->
    kw_leaf D kw n = kw_leaf D kw' n' -> kw = kw' /\ n = n'.
Definition few_leaves (h : list d_op) : Prop := forall kw, (N.of_nat (a_count kw (d_atoms h)) < 2 ^ 32)%N.
(** Documents are made of [n] bytes. *)
Definition docs_bytes (n : nat) (h : list d_op) : Prop :=
  forall kw doc, AIns kw doc ∈ d_atoms h -> length doc = n /\ Forall (fun b => (b < 256)%N) doc.
(** Assumed of the constrained PRF. *)
Definition rcprf_ok (D : diana) : Prop :=
  (forall k n, d_max_leaf D (d_constrain D k 0 n) = n) /\
  (forall k n i, (i <= n)%N -> d_eval D (d_constrain D k 0 n) i = d_leaf D k i).
