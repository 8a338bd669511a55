(** What the servers of Tethys and Pluto see, and what they must not learn. *)
From stdpp Require Import prelude gmap.
From Coq Require Import ZArith NArith.
From Verif Require Import Base EncModel StoreModel KvModel SchemeModel SchemeSpec PlutoModel PlutoSpec.
Local Open Scope nat_scope.

(** The keystream under the key of the encoder, as a function of the nonce: pads of [n]
    bytes. *)
Definition pad_ok (n : nat) (s : bytes -> bytes) : Prop :=
  forall nc, length (s nc) = n /\ Forall (fun b => (b < 256)%N) (s nc).
(** [there] and [back] are inverse bijections of the keystreams. *)
Definition pad_bijection (n : nat) (there back : (bytes -> bytes) -> bytes -> bytes) : Prop :=
  (forall s, pad_ok n s -> pad_ok n (there s) /\ pad_ok n (back s)) /\
  (forall s, pad_ok n s -> forall nc, back (there s) nc = s nc /\ there (back s) nc = s nc).

(** A scheme in which the key of the encoder has another keystream. *)
Definition with_pad (sc : scheme) (s : bytes -> bytes) : scheme :=
  Scheme (SPar (sp_enc (sc_store sc)) (sp_n (sc_store sc)) (sp_hash (sc_store sc))
    match sp_cipher (sc_store sc) with
    | Plain => Plain
    | Encrypted ks k => Encrypted (fun k' nc len => if decide (k' = k) then take len (s nc) else ks k' nc len) k
    end) (sc_prf sc) (sc_hash sc).
Definition encrypts (sc : scheme) : Prop := exists ks k, sp_cipher (sc_store sc) = Encrypted ks k.

(** * Tethys *)
(** What the server gets: the table, and for each search its request, with the answer that
    it computes. *)
Definition t_view (fuel : nat) (sc : scheme) (db : database) (ws : list bytes)
  : res (list bytes * list (sreq * res (list kbp))) :=
  sb <~ new_store_builder (sc_store sc);
  let b := (insert_db sc (TB sb ∅) db).1 in
  f <~ (tethys_build fuel sc b).2;
  c <~ open_client sc (tb_counters b) f;
  Ok (sf_table f,
      (fun w => let r := tethys_search_request sc c w in (r, tethys_server_search sc (open_server f) r)) <$> ws).

(** Everything succeeds. *)
Definition t_succeeds (fuel : nat) (sc : scheme) (db : database) : Prop :=
  exists sb b f c,
    new_store_builder (sc_store sc) = Ok sb /\
    insert_db sc (TB sb ∅) db = (b, replicate (length db) (Ok tt)) /\
    (tethys_build fuel sc b).2 = Ok f /\ open_client sc (tb_counters b) f = Ok c.

(** Number of blocks of a keyword. *)
Definition t_blocks (sc : scheme) (db : database) (w : bytes) : nat :=
  if decide (w ∈ db.*1) then S (length (ids_of w db) / max_list_size (sp_enc (sc_store sc))) else 0.

(** * Pluto *)
Definition p_with_pad (pp : pparams) (s : bytes -> bytes) : pparams := PPar (with_pad (pp_sc pp) s) (pp_ht pp).
Definition p_view (fuel : nat) (pp : pparams) (rand : nat -> bytes) (n_elts : N) (db : database) (ws : list bytes)
  : res (ht_files * list bytes * list (bytes * res (list N * kbp))) :=
  b0 <~ pluto_new pp;
  f <~ (pluto_build fuel pp rand n_elts (pluto_insert_db pp b0 db).1).2;
  s <~ pluto_open_server pp f;
  Ok (f.1, sf_table f.2,
      (fun w => let r := pluto_search_request pp w in (r, pluto_server_search fuel pp s r)) <$> ws).

Definition p_succeeds (fuel : nat) (pp : pparams) (rand : nat -> bytes) (n_elts : N) (db : database) : Prop :=
  exists b0 b f s,
    pluto_new pp = Ok b0 /\
    pluto_insert_db pp b0 db = (b, replicate (length db) (Ok tt)) /\
    (pluto_build fuel pp rand n_elts b).2 = Ok f /\ pluto_open_server pp f = Ok s.

(** The complete blocks of a database. *)
Definition full_part (L : nat) (db : database) : database :=
  filter (fun x => x.2 <> []) ((fun x => (x.1, take (length x.2 / L * L) x.2)) <$> db).
