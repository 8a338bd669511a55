(** Model of remove_directory, lib/utils/utils.cpp:66-152, on a file system.

    Simplifications.
    - A path is the list of its components, the last one first; it goes through
      directories only (a path given through a link is replaced by the path it leads to).
    - The traversal of fts sees the file system as it is when remove_directory is called:
      nobody else changes it, and remove_directory itself only removes what was visited. *)
From stdpp Require Import prelude gmap.
From Coq Require Import Lia.
From Verif Require Import Base.

(** A component of a path and a path (utils.cpp:66, 72). *)
Definition path : Type := list positive.
(** What lstat finds: a regular file (or a device, a socket), a symbolic link, with what stat
    finds behind it, a directory (utils.cpp:52-57, 99-131). *)
Inductive kind := KFile | KLink (leads : bool) | KFolder.
(** Comparison (no counterpart in utils.cpp:66-152). *)
Global Instance kind_eq_dec : EqDecision kind.
Proof. solve_decision. Defined.
(** The file system of utils.cpp:66-152. *)
Notation files := (gmap path kind).

(** exists, utils.cpp:52-57: stat follows the links. *)
Definition r_exists (f : files) (p : path) : bool :=
  match f !! p with Some (KLink b) => b | Some _ => true | None => false end.

(** fts_info and the path of the entries given by fts_read, with FTS_PHYSICAL
    (utils.cpp:99-147): FTS_D, FTS_DP, an error (FTS_NS, FTS_DNR or FTS_ERR), FTS_F or
    FTS_DEFAULT, FTS_SL. *)
Inductive fts_ev := FtsD (p : path) | FtsDP (p : path) | FtsErr (p : path) | FtsF (p : path) | FtsSL (p : path).

Section fts.
  (** Whether an entry can be examined (else FTS_NS or FTS_ERR, utils.cpp:101-103) and, if
      it is a directory, read (else FTS_DNR, utils.cpp:102); whether it is on
      another device than the root of the traversal: with FTS_XDEV it is not entered
      (utils.cpp:87-89). *)
  Variable readable xdev : path -> bool.
  Variable f : files.

  (** The sequence of the entries given by fts_read for [p] and what is below
      (utils.cpp:88-89, 99); without a comparison function the entries of a directory
      come in any order. *)
  Inductive fts : path -> list fts_ev -> Prop :=
  | fts_file p : f !! p = Some KFile -> fts p [FtsF p]
  | fts_link p b : f !! p = Some (KLink b) -> fts p [FtsSL p]
  | fts_error p : is_Some (f !! p) -> readable p = false -> fts p [FtsErr p]
  | fts_unreadable p : f !! p = Some KFolder -> readable p = false -> fts p [FtsD p; FtsErr p]
  | fts_other p : f !! p = Some KFolder -> readable p = true -> xdev p = true -> fts p [FtsD p; FtsDP p]
  | fts_dir p ns es : f !! p = Some KFolder -> readable p = true -> xdev p = false ->
      NoDup ns -> (forall n, n ∈ ns <-> is_Some (f !! (n :: p))) ->
      fts_list p ns es -> fts p (FtsD p :: es ++ [FtsDP p])
  with fts_list : path -> list positive -> list fts_ev -> Prop :=
  | fts_nil p : fts_list p [] []
  | fts_cons p n ns es es' : fts (n :: p) es -> fts_list p ns es' -> fts_list p (n :: ns) (es ++ es').
End fts.

(** Whether a directory has an entry left: remove fails then (utils.cpp:132). *)
Definition r_empty (f : files) (p : path) : bool :=
  bool_decide (map_Forall (fun q _ => tail q <> p \/ q = []) f).
(** remove, utils.cpp:132; [perm] tells whether the system lets the entry be removed. *)
Definition r_remove (perm : path -> bool) (f : files) (p : path) : option files :=
  if perm p && (match f !! p with Some KFolder => r_empty f p | Some _ => true | None => false end)
  then Some (delete p f) else None.

(** Loop of utils.cpp:99-147: the file system, and whether it ends or throws. *)
Fixpoint r_loop (perm : path -> bool) (f : files) (es : list fts_ev) : files * res bool :=
  match es with
  | [] => (f, Ok true)
  | FtsD _ :: es' => r_loop perm f es'
  | FtsErr _ :: _ => (f, Throw RuntimeError)
  | FtsDP p :: es' | FtsF p :: es' | FtsSL p :: es' =>
      match r_remove perm f p with
      | Some f' => r_loop perm f' es'
      | None => (f, Throw RuntimeError)
      end
  end.

(** remove_directory, utils.cpp:66-152: the path does not exist, fts_open fails, the loop is
    run.  fts_read returns a null pointer at the end of the traversal, but also when it
    fails; the loop does not tell them apart (utils.cpp:99).  [fails] tells whether this
    happens. *)
Inductive remove_directory (readable xdev perm : path -> bool) (fails : bool) (f : files) (p : path)
    : files * res bool -> Prop :=
| rd_absent : r_exists f p = false -> remove_directory readable xdev perm fails f p (f, Ok true)
| rd_fts_open : r_exists f p = true -> remove_directory readable xdev perm fails f p (f, Throw RuntimeError)
| rd_run es : r_exists f p = true -> fts readable xdev f p es ->
    remove_directory readable xdev perm fails f p (r_loop perm f es)
| rd_stop es es' : r_exists f p = true -> fails = true -> fts readable xdev f p (es ++ es') ->
    remove_directory readable xdev perm fails f p (r_loop perm f es).
