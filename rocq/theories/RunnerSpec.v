(** What is expected of the runners. *)
From stdpp Require Import prelude gmap.
From Coq Require Import NArith.
From Verif Require Import Base EncModel KvModel SophosModel SophosSpec DianaModel DianaSpec RunnerModel.

(** A complete state on disk for a key. *)
Definition complete (f : fs) (key : bytes) : Prop := f = FDir (SDir true (Some key)).

(** * Sessions *)
(** The calls made to a client runner: insert, insert_in_session (whether the message
    arrives at the server is told), start_update_session, end_update_session, search.
    The caller catches the exceptions. *)
Inductive r_op (I : Type) :=
| RInsert (kw : bytes) (i : I) (delivered : bool)
| RSession (kw : bytes) (i : I) (delivered : bool)
| RStart
| REnd
| RFind (kw : bytes).
Arguments RInsert {I} _ _ _.
Arguments RSession {I} _ _ _.
Arguments RStart {I}.
Arguments REnd {I}.
Arguments RFind {I} _.

(** Whether a session is open after some calls. *)
Definition session_open {I} (b : bool) (h : list (r_op I)) : bool :=
  foldl (fun b o => match o with RStart => true | REnd => false | _ => b end) b h.

(** The answers to the searches, for Sophos. *)
Fixpoint so_calls (S : sophos) (r : runner) (db : gmap bytes N) (ops : list (r_op N)) : list (list N) :=
  match ops with
  | [] => []
  | RInsert kw i d :: ops' =>
      let x := so_runner_insert S r kw i in
      so_calls S x.1 (match x.2 with Ok u => if d then so_insert db u else db | _ => db end) ops'
  | RSession kw i d :: ops' =>
      let x := so_insert_in_session S r kw i in
      so_calls S x.1 (match x.2 with Ok u => if d then so_insert db u else db | _ => db end) ops'
  | RStart :: ops' => so_calls S (start_session r) db ops'
  | REnd :: ops' => so_calls S (end_session r) db ops'
  | RFind kw :: ops' =>
      so_server_search S db (so_search_request S (r_counters r) kw) :: so_calls S r db ops'
  end.

(** The answers to the searches, for Diana with asynchronous searches on the server
    (the order of a parallel search is that of the sequential one; C38 tells how they
    are related). *)
Fixpoint d_calls (D : diana) (r : runner) (db : gmap bytes bytes) (ops : list (r_op bytes)) : res (list (list bytes)) :=
  match ops with
  | [] => Ok []
  | RInsert kw i d :: ops' =>
      let x := d_runner_insert D r kw i in
      d_calls D x.1 (match x.2 with Ok us => deliver db ((fun u => (u, d)) <$> us) | _ => db end) ops'
  | RSession kw i d :: ops' =>
      let x := d_insert_in_session D r kw i in
      d_calls D x.1 (match x.2 with Ok us => deliver db ((fun u => (u, d)) <$> us) | _ => db end) ops'
  | RStart :: ops' => d_calls D (start_session r) db ops'
  | REnd :: ops' => d_calls D (end_session r) db ops'
  | RFind kw :: ops' =>
      x <~ d_server_search_list D db (d_search_request D (r_counters r) kw) false;
      rs <~ d_calls D r x.1 ops';
      Ok (x.2 :: rs)
  end.

(** The insertions that the calls amount to: a session insertion without a session never
    arrives. *)
Fixpoint so_meaning (b : bool) (ops : list (r_op N)) : list so_op :=
  match ops with
  | [] => []
  | RInsert kw i d :: ops' => SoIns kw i d :: so_meaning b ops'
  | RSession kw i d :: ops' => SoIns kw i (b && d) :: so_meaning b ops'
  | RStart :: ops' => so_meaning true ops'
  | REnd :: ops' => so_meaning false ops'
  | RFind kw :: ops' => SoFind kw :: so_meaning b ops'
  end.
Fixpoint d_meaning (b : bool) (ops : list (r_op bytes)) : list d_op :=
  match ops with
  | [] => []
  | RInsert kw i d :: ops' => DIns kw i d :: d_meaning b ops'
  | RSession kw i d :: ops' => DIns kw i (b && d) :: d_meaning b ops'
  | RStart :: ops' => d_meaning true ops'
  | REnd :: ops' => d_meaning false ops'
  | RFind kw :: ops' => DFind kw false :: d_meaning b ops'
  end.
