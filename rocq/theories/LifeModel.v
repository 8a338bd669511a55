(** The files of a builder of Oceanus, system call by system call: what is on disk
    if the process dies, and what a later builder finds.
    Sources: lib/include/sse/schemes/oceanus/cuckoo.hpp,
    lib/include/sse/schemes/oceanus/oceanus.hpp,
    lib/include/sse/schemes/abstractio/awonvm_vector.hpp, lib/utils/utils.cpp. *)
From stdpp Require Import prelude.
From Coq Require Import ZArith NArith Lia.
From Verif Require Import Base EncModel VecModel CuckooModel.
Local Open Scope nat_scope.

(** * The disk *)
(** The files: the value file and the table of a builder of Oceanus,
    oceanus.hpp:104-105 and 113-116; the table and the stash of a builder of
    Tethys (TethysLifeModel.v), tethys_store_builder.hpp:18-20. *)
Inductive path := Tmp | Tab | Pages | Stash.
(** What is on disk: [None] is a file that does not exist (oceanus.hpp:104-105,
    tethys_store_builder.hpp:18-20). *)
Record disk := Disk { dk_tmp : option bytes; dk_tab : option bytes;
                      dk_pages : option bytes; dk_stash : option bytes }.
(** The file at a path (oceanus.hpp:104-105, tethys_store_builder.hpp:18-20). *)
Definition dk_get (p : path) (d : disk) : option bytes :=
  match p with Tmp => dk_tmp d | Tab => dk_tab d | Pages => dk_pages d | Stash => dk_stash d end.
(** Replacing the file at a path (oceanus.hpp:104-105, tethys_store_builder.hpp:18-20). *)
Definition dk_set (p : path) (f : option bytes) (d : disk) : disk :=
  match p with
  | Tmp => Disk f (dk_tab d) (dk_pages d) (dk_stash d)
  | Tab => Disk (dk_tmp d) f (dk_pages d) (dk_stash d)
  | Pages => Disk (dk_tmp d) (dk_tab d) f (dk_stash d)
  | Stash => Disk (dk_tmp d) (dk_tab d) (dk_pages d) f
  end.
(** What open_fd and file_size find at a path: a file that does not exist is
    created empty, utils.cpp:160-170 and awonvm_vector.hpp:149, 166-170. *)
Definition content (p : path) (d : disk) : bytes := default [] (dk_get p d).

(** The system calls that change the files: open with O_CREAT (utils.cpp:162-170),
    ftruncate (awonvm_vector.hpp:198), write at the position of the descriptor
    (awonvm_vector.hpp:227), unlink (utils.cpp:155-158). *)
Inductive fop :=
| Create (p : path)
| Trunc (p : path) (n : nat)
| Write (p : path) (off : nat) (bs : bytes)
| Unlink (p : path).
(** Their effect; none fails, and a write is done at once or not at all
    (utils.cpp:155-170, awonvm_vector.hpp:198, 227). *)
Definition do_op (d : disk) (o : fop) : disk :=
  match o with
  | Create p => dk_set p (Some (content p d)) d
  | Trunc p n => dk_set p (Some (file_truncate (content p d) n)) d
  | Write p off bs => dk_set p (Some (file_write (content p d) off bs)) d
  | Unlink p => dk_set p None d
  end.
(** A sequence of system calls (utils.cpp:155-170, awonvm_vector.hpp:198, 227). *)
Definition do_ops (d : disk) (os : list fop) : disk := foldl do_op d os.

(** * The system calls of the vectors *)
(** reserve, awonvm_vector.hpp:194-207. *)
Definition reserve_ops (p : path) (sz : nat) (v : vec) (n : nat) : list fop :=
  if bool_decide (v_committed v = false /\ v_size v < n) then [Trunc p (n * sz)] else [].
(** push_back, awonvm_vector.hpp:210-240. *)
Definition push_ops (p : path) (v : vec) (al : bool) (val : bytes) : list fop :=
  if v_committed v then []
  else if v_direct v && negb al then []
  else [Write p (v_pos v) val].

(** * The system calls of the builder *)
(** Constructor, cuckoo.hpp:111-124: the builder and its system calls. *)
Definition life_new (sz size depth max_n : nat) (d : disk) : cbuilder * list fop :=
  (cb_new sz size depth max_n (content Tmp d),
   Create Tmp :: reserve_ops Tmp sz (open_vec sz (content Tmp d) false) max_n).

(** insert, cuckoo.hpp:147-178. *)
Definition insert_ops (b : cbuilder) (key val : bytes) : list fop :=
  if cb_committed b then [] else push_ops Tmp (cb_data b) false (key ++ val).

(** One table written to the file, cuckoo.hpp:213-238 (see cb_write). *)
Fixpoint write_ops (sz : nat) (data : vec) (slots : list cval) (out : vec) : list fop :=
  match slots with
  | [] => []
  | s :: slots' =>
      match (if is_empty (cv_index s) then Ok (replicate sz 255%N)
             else vec_get sz data (N.to_nat (cv_index s))) with
      | Ok pl =>
          push_ops Tab out false pl ++
          match vec_push out false pl with
          | (out', Ok _) => write_ops sz data slots' out'
          | _ => []
          end
      | _ => []
      end
  end.

(** commit, cuckoo.hpp:186-243 (see cb_commit): the value file is removed if no
    exception was thrown. *)
Definition commit_ops (sz : nat) (b : cbuilder) (table_file : bytes) : list fop :=
  if cb_committed b then []
  else
    let data := vec_commit (cb_data b) in
    let new := open_vec sz table_file false in
    let out := vec_reserve sz new (2 * ca_size (cb_alloc b)) in
    Create Tab :: reserve_ops Tab sz new (2 * ca_size (cb_alloc b)) ++
    write_ops sz data (ca_t0 (cb_alloc b)) out ++
    match cb_write sz data (ca_t0 (cb_alloc b)) out with
    | (out1, Ok _) =>
        write_ops sz data (ca_t1 (cb_alloc b)) out1 ++
        match cb_write sz data (ca_t1 (cb_alloc b)) out1 with
        | (_, Ok _) => [Unlink Tmp]
        | _ => []
        end
    | _ => []
    end.

(** Calls of the user of a builder, oceanus.hpp:90-93. *)
Inductive bcall := BInsert (key val : bytes) | BCommit.

(** A call: the builder after it, its system calls and its answer
    (cuckoo.hpp:147-243). *)
Definition life_call (sz : nat) (hash : bytes -> N * N) (b : cbuilder) (d : disk) (c : bcall)
  : cbuilder * list fop * res unit :=
  match c with
  | BInsert k v => let r := cb_insert hash b k v in (r.1, insert_ops b k v, r.2)
  | BCommit =>
      let r := cb_commit sz b (content Tab d) in
      (r.1.1, commit_ops sz b (content Tab d), r.2)
  end.

(** Successive calls; the user catches the exceptions (cuckoo.hpp:147-243). *)
Fixpoint life_calls (sz : nat) (hash : bytes -> N * N) (b : cbuilder) (d : disk) (cs : list bcall)
  : cbuilder * list fop * list (res unit) :=
  match cs with
  | [] => (b, [], [])
  | c :: cs' =>
      let r := life_call sz hash b d c in
      let r' := life_calls sz hash r.1.1 (do_ops d r.1.2) cs' in
      (r'.1.1, r.1.2 ++ r'.1.2, r.2 :: r'.2)
  end.

(** A builder constructed on a disk and the calls made to it: its state, the
    system calls and the answers (cuckoo.hpp:111-243). *)
Definition life (sz size depth max_n : nat) (hash : bytes -> N * N) (d : disk) (cs : list bcall)
  : cbuilder * list fop * list (res unit) :=
  let n := life_new sz size depth max_n d in
  let r := life_calls sz hash n.1 (do_ops d n.2) cs in
  (r.1.1, n.2 ++ r.1.2, r.2).

(** The destructors, oceanus.hpp:143-147 and cuckoo.hpp:132-138: the system calls,
    and whether they return.  An exception thrown by a destructor terminates the
    process. *)
Definition life_end (sz : nat) (b : cbuilder) (d : disk) : list fop * bool :=
  (commit_ops sz b (content Tab d),
   match (cb_commit sz b (content Tab d)).2 with Ok _ => true | _ => false end).
