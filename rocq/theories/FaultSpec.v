(** What Sophos and Diana must do when RocksDB reports errors. *)
From stdpp Require Import prelude gmap.
From Coq Require Import NArith Lia.
From Verif Require Import Base EncModel KvModel SophosModel SophosSpec DianaModel DianaSpec FaultModel.

(** ** Sophos *)
(** A history: insertions, with the outcomes of the read of the counter, of its write, and
    of the write of the server; searches, with the outcomes of the read of the counter and
    of the reads of the server. *)
Inductive f_op :=
| FIns (kw : bytes) (index : N) (failed : bool) (w put : wres)
| FFind (kw : bytes) (failed : bool) (reads : nat -> bool).
(** What the user sees: whether the insertion was reported to succeed, the results of the
    search. *)
Inductive f_out := OIns (ok : bool) | OFind (l : list N).

(** Running the client and the server; a request is sent if the client does not throw. *)
Fixpoint f_so_run (S : sophos) (c : counters) (db : gmap bytes N) (ops : list f_op) : list f_out :=
  match ops with
  | [] => []
  | FIns kw i failed w put :: ops' =>
      let r := f_so_insertion_request S c kw i failed w in
      match r.2 with
      | Ok u => OIns true :: f_so_run S r.1 (f_so_insert db u put) ops'
      | _ => OIns false :: f_so_run S r.1 db ops'
      end
  | FFind kw failed reads :: ops' =>
      OFind (f_so_server_search S db (f_so_search_request S c kw failed) reads) :: f_so_run S c db ops'
  end.

(** An insertion that was not reported to succeed, or that the server could not store, is
    a lost update, or nothing at all. *)
Definition f_event (o : f_op) : list so_op :=
  match o with
  | FIns kw i _ WOk put => [SoIns kw i (landed put)]
  | FIns kw i _ WLanded _ => [SoIns kw i false]
  | FIns _ _ _ WLost _ => []
  | FFind kw _ _ => [SoFind kw]
  end.
(** The documents stored, newest first, except those that could not be read. *)
Definition visible (reads : nat -> bool) (l : list (N * bool)) : list N :=
  omap id (imap (fun j x => if x.2 && negb (reads j) then Some x.1 else None) (reverse l)).
Fixpoint f_so_answers (past : list so_op) (ops : list f_op) : list f_out :=
  match ops with
  | [] => []
  | o :: ops' =>
      match o with
      | FIns _ _ _ w _ => OIns (match w with WOk => true | _ => false end)
      | FFind kw failed reads => OFind (if failed then [] else visible reads (insertions kw past))
      end :: f_so_answers (past ++ f_event o) ops'
  end.
(** No read of a counter fails during an insertion. *)
Definition counters_read (ops : list f_op) : Prop :=
  Forall (fun o => match o with FIns _ _ failed _ _ => failed = false | _ => True end) ops.

(** ** Diana *)
Inductive fd_op :=
| FDIns (kw doc : bytes) (failed : bool) (w put : wres)
| FDBulk (l : list (bytes * bytes * (bool * wres) * wres))
| FDFind (kw : bytes) (delete_results failed : bool) (reads : N -> bool) (removes : N -> wres).
Inductive fd_out := ODIns (ok : bool) | ODFind (r : res (list bytes)).

(** Running the client and the server. *)
Definition f_deliver (db : gmap bytes bytes) (l : list (d_update * wres)) : gmap bytes bytes :=
  foldl (fun db x => f_d_insert db x.1 x.2) db l.
Fixpoint f_d_run (D : diana) (c : counters) (db : gmap bytes bytes) (ops : list fd_op) : list fd_out :=
  match ops with
  | [] => []
  | FDIns kw doc failed w put :: ops' =>
      let r := f_d_insertion_request D c kw doc failed w in
      match r.2 with
      | Ok u => ODIns true :: f_d_run D r.1 (f_d_insert db u put) ops'
      | _ => ODIns false :: f_d_run D r.1 db ops'
      end
  | FDBulk l :: ops' =>
      let r := f_d_bulk_request D c (l.*1) in
      match r.2 with
      | Ok us => ODIns true :: f_d_run D r.1 (f_deliver db (zip us (l.*2))) ops'
      | _ => ODIns false :: f_d_run D r.1 db ops'
      end
  | FDFind kw del failed reads removes :: ops' =>
      match f_d_server_search D db (f_d_search_request D c kw failed) del reads removes with
      | Ok (db', l) => ODFind (Ok l) :: f_d_run D c db' ops'
      | Throw e => [ODFind (Throw e)]
      | UB => [ODFind UB]
      | OutOfFuel => [ODFind OutOfFuel]
      end
  end.

(** A bulk insertion is sent if all its counters were written. *)
Definition bulk_ok (l : list (bytes * bytes * (bool * wres) * wres)) : bool :=
  forallb (fun x => match x.1.2.2 with WOk => true | _ => false end) l.
(** The slots taken by a bulk insertion: those up to the first failure. *)
Fixpoint bulk_slots (s : slots) (sent : bool) (l : list (bytes * bytes * (bool * wres) * wres)) : slots :=
  match l with
  | [] => s
  | (kw, doc, (_, w), put) :: l' =>
      match w with
      | WOk => bulk_slots (add_slot s kw doc (sent && landed put)) sent l'
      | WLanded => add_slot s kw doc false
      | WLost => s
      end
  end.
(** The slots of a keyword emptied by a search that deletes: those that were read and
    removed. *)
Definition empty_some (P : nat -> bool) (s : slots) (kw : bytes) : slots :=
  fun k => if decide (k = kw) then imap (fun j o => if P j then None else o) (s k) else s k.
Definition fd_slots (s : slots) (o : fd_op) : slots :=
  match o with
  | FDIns kw doc _ w put =>
      match w with
      | WOk => add_slot s kw doc (landed put)
      | WLanded => add_slot s kw doc false
      | WLost => s
      end
  | FDBulk l => bulk_slots s (bulk_ok l) l
  | FDFind kw del failed reads removes =>
      if del && negb failed
      then empty_some (fun j => negb (reads (N.of_nat j)) && landed (removes (N.of_nat j))) s kw else s
  end.
Definition fd_contents (reads : N -> bool) (s : slots) (kw : bytes) : list bytes :=
  omap id (imap (fun j o => if reads (N.of_nat j) then None else o) (s kw)).
Fixpoint f_d_answers (s : slots) (ops : list fd_op) : list fd_out :=
  match ops with
  | [] => []
  | o :: ops' =>
      match o with
      | FDIns _ _ _ w _ => ODIns (match w with WOk => true | _ => false end)
      | FDBulk l => ODIns (bulk_ok l)
      | FDFind kw _ failed reads _ => ODFind (Ok (if failed then [] else fd_contents reads s kw))
      end :: f_d_answers (fd_slots s o) ops'
  end.
Definition fd_counters_read (ops : list fd_op) : Prop :=
  Forall (fun o => match o with
    | FDIns _ _ failed _ _ => failed = false
    | FDBulk l => Forall (fun x => x.1.2.1 = false) l
    | _ => True end) ops.
Definition fd_docs_ok (D : diana) (ops : list fd_op) : Prop :=
  Forall (fun o => match o with
    | FDIns _ doc _ _ _ => length doc = d_len D
    | FDBulk l => Forall (fun x => length x.1.1.2 = d_len D) l
    | _ => True end) ops.
