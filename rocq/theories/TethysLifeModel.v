(** The files of a builder of Tethys, system call by system call: what is on disk
    if the process dies, and what a later builder or store finds.
    Sources: lib/include/sse/schemes/tethys/tethys_store_builder.hpp,
    lib/include/sse/schemes/tethys/tethys_store.hpp,
    lib/include/sse/schemes/abstractio/awonvm_vector.hpp. *)
From stdpp Require Import prelude gmap.
From Coq Require Import ZArith NArith Lia.
From Verif Require Import Base GraphModel AllocModel EncModel StoreModel VecModel LifeModel.
Local Open Scope nat_scope.

(** * Functions that make system calls *)
(** The system calls of a function of tethys_store_builder.hpp:167-310, and what it
    returns or throws. *)
Definition io (A : Type) : Type := list fop * res A.
(** A statement followed by another: an exception skips the second
    (tethys_store_builder.hpp:167-310). *)
Definition ibind {A B} (m : io A) (f : A -> io B) : io B :=
  match m.2 with
  | Ok x => let r := f x in (m.1 ++ r.1, r.2)
  | Throw e => (m.1, Throw e)
  | UB => (m.1, UB)
  | OutOfFuel => (m.1, OutOfFuel)
  end.
(** A statement without system call (tethys_store_builder.hpp:167-310). *)
Definition quiet {A} (r : res A) : io A := ([], r).

(** * The builder *)
(** The loop over the vertices, tethys_store_builder.hpp:192-269 (see build_pages),
    with the vector of the pages. *)
Fixpoint page_io (sp : sparams) (data : list (bytes * list bytes)) (g : graph)
  (l : list nat) (out : vec) : io vec :=
  match l with
  | [] => quiet (Ok out)
  | i :: l' =>
      ibind (quiet (v <~ vat (g_verts g) i; build_page sp data (g_edges g) i v)) (fun r =>
      ibind (push_ops Pages out false r.1, (vec_push out false r.1).2) (fun storage_index =>
      if bool_decide (storage_index = i) then page_io sp data g l' (vec_push out false r.1).1
      else quiet (Throw RuntimeError)))
  end.

(** What the stream writes to the stash file, tethys_store_builder.hpp:280-303,
    from an offset on; the stream cuts its bytes into system calls as it likes. *)
Fixpoint stash_writes (off : nat) (cs : list bytes) : list fop :=
  match cs with
  | [] => []
  | c :: cs' => Write Stash off c :: stash_writes (off + length c) cs'
  end.

(** The part of build() that follows the allocation, tethys_store_builder.hpp:190-306
    (see write_files).  ofstream::open creates or empties the file (line 281).
    [cut] is the way the stream cuts what is given to it. *)
Definition write_io (sp : sparams) (cut : bytes -> list bytes)
  (data : list (bytes * list bytes)) (a : allocator) (out : vec) : io unit :=
  ibind (quiet (get_allocation_graph a)) (fun g =>
  ibind (page_io sp data g (seq 0 (sp_n sp)) out) (fun _ =>
  ibind (quiet (get_stashed_edges a)) (fun s =>
  if bool_decide (0 < length s) then
    ibind ([Trunc Stash 0], Ok tt) (fun _ =>
    ibind (quiet (build_stash (sp_enc sp) data (g_edges g) s)) (fun b =>
    (stash_writes 0 (cut b), Ok tt)))
  else quiet (Ok tt)))).

(** build, tethys_store_builder.hpp:167-310 (see store_build): the builder after the
    call, the system calls and the answer.  The destructor of the vector, if an
    exception is thrown, leaves the file as it is (awonvm_vector.hpp:181-192). *)
Definition build_io (fuel : nat) (sp : sparams) (cut : bytes -> list bytes) (b : sbuilder) (d : disk)
  : sbuilder * io unit :=
  if sb_built b then (b, quiet (Throw RuntimeError))
  else
    let new := open_vec (kp_page (sp_enc sp)) (content Pages d) false in
    let first := Create Pages :: reserve_ops Pages (kp_page (sp_enc sp)) new (sp_n sp) in
    match allocate fuel (sb_alloc b) with
    | Ok a =>
        let w := write_io sp cut (sb_data b) a (vec_reserve (kp_page (sp_enc sp)) new (sp_n sp)) in
        (SB a (sb_data b) (match w.2 with Ok _ => true | _ => false end), (first ++ w.1, w.2))
    | Throw e => (b, (first, Throw e))
    | UB => (b, (first, UB))
    | OutOfFuel => (b, (first, OutOfFuel))
    end.

(** * The store *)
(** Constructor and load_stash of a store, tethys_store.hpp:121-160, on the files
    found on disk: the table must not be empty, and the stash is loaded if its file
    exists.  [st_table] lists the pages that get can read. *)
Definition open_disk (p : eparams) (d : disk) : res store :=
  let v := open_vec (kp_page p) (content Pages d) false in
  if negb (v_committed v) then Throw RuntimeError
  else
    m <~ match dk_stash d with None => Ok ∅ | Some b => deserialize_map p b end;
    Ok (Store (chunks (kp_page p) (v_size v) (v_file v)) m).
