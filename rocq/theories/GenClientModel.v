(** Model of the option -r of the client programs, src/sophos_client.cpp and
    src/diana_client.cpp: a random database is generated by several threads
    (lib/utils/db_generator.cpp), whose callbacks insert in an update session.

    Simplifications.
    - The command line is modelled in ProgModel.v: here the number of documents is given.
    - The update session is up during the generation (RunnerModel.v has the sessions), so
      that insert_in_session does not throw.
    - The insertions of the threads are interleaved as in ConcModel.v. *)
From stdpp Require Import prelude strings.
From Coq Require Import NArith Lia Ascii.
From Verif Require Import Base EncModel DbGenModel GenFloatModel.
Local Open Scope N_scope.

(** The characters of a std::string (db_generator.cpp:176-198), as bytes. *)
Fixpoint str_bytes (s : string) : bytes :=
  match s with
  | EmptyString => []
  | String a s' => N_of_ascii a :: str_bytes s'
  end.

Section gen.
  (** As in DbGenModel.v (db_generator.cpp:118-155). *)
  Variable ngroups : nat -> N.
  Variable below : nat -> N -> bool.
  (** The calls of the callback by each of the threads of gen_db, db_generator.cpp:526-539:
      [k] threads from [tid] on. *)
  Fixpoint logs_from (k : nat) (n step tid : N) (streams : N -> N -> N) : res (list (list (kwd * N))) :=
    match k with
    | O => Ok []
    | S k' =>
        x <~ generation_job ngroups below n step tid (streams tid);
        y <~ logs_from k' n step (tid + 1) streams;
        Ok (x.1.1 :: y)
    end.
  (** gen_db, db_generator.cpp:519-548. *)
  Definition gen_logs (n n_threads : N) (streams : N -> N -> N) : res (list (list (kwd * N))) :=
    logs_from (N.to_nat n_threads) n n_threads 0 streams.
End gen.
(** The same with the floating-point computations, db_generator.cpp:45-53, 118-155 (as
    gen_db_fl in GenFloatModel.v). *)
Definition gen_logs_fl (n n_threads : N) (streams : N -> N -> N) : res (list (list (kwd * N))) :=
  if n_threads =? 0 then gen_logs (fun _ => 0) (fun _ _ => false) n 0 streams else
  g2 <~ fl_groups n n_threads 0;
  g3 <~ fl_groups n n_threads 1;
  g4 <~ fl_groups n n_threads 2;
  g5 <~ fl_groups n n_threads 3;
  g6 <~ fl_groups n n_threads 4;
  let groups := fun lv => nth lv [g2; g3; g4; g5; g6] 0 in
  gen_logs groups (fun lv ind => fl_below n n_threads lv (groups lv) ind) n n_threads streams.

(** ** Sophos *)
(** The arguments of the calls of insert_in_session made by a thread that calls the
    callback of sophos_client.cpp:100-102 with these arguments. *)
Definition so_thread (log : list (kwd * N)) : list (bytes * N) :=
  (fun x => (str_bytes (kw_string x.1), x.2)) <$> log.
(** sophos_client.cpp:96-107: what the threads insert; nothing if rnd_entries_count is
    zero. *)
Definition so_random (count n_threads : N) (streams : N -> N -> N) : res (list (list (bytes * N))) :=
  if count =? 0 then Ok [] else
  logs <~ gen_logs_fl count n_threads streams;
  Ok (so_thread <$> logs).

(** ** Diana *)
(** A pair (keyword, document) as passed to insert_in_session, client_runner.cpp:368-393;
    the document is the array of its bytes. *)
Definition d_entry (x : kwd * N) : bytes * bytes := (str_bytes (kw_string x.1), le64 x.2).
(** The callback of diana_client.cpp:108-120, for a thread whose g_diana_buffer_list_ is
    [buf] (empty if it has not been allocated): the buffer afterwards, and the list passed
    to insert_in_session, if any. *)
Definition d_callback (buf : list (bytes * bytes)) (x : bytes * bytes) : list (bytes * bytes) * option (list (bytes * bytes)) :=
  let buf' := buf ++ [x] in
  if 50 <=? N.of_nat (length buf') then ([], Some buf') else (buf', None).
(** The callbacks of a thread (diana_client.cpp:108-120, db_generator.cpp:183-403): the
    lists passed to insert_in_session, in order, and what is left in the buffer. *)
Fixpoint d_callbacks (buf : list (bytes * bytes)) (xs : list (bytes * bytes)) : list (list (bytes * bytes)) * list (bytes * bytes) :=
  match xs with
  | [] => ([], buf)
  | x :: xs' =>
      let r := d_callback buf x in
      let r' := d_callbacks r.1 xs' in
      (match r.2 with Some l => l :: r'.1 | None => r'.1 end, r'.2)
  end.
(** The insertions of a thread, diana_client.cpp:108-120: bulk_insertion_request takes the
    elements of a list one after the other (diana_client.hpp:209-246).  The buffer is
    empty when the thread starts (22-23), and what is left in it when the thread ends is
    not used any more (122-124). *)
Definition d_thread (log : list (kwd * N)) : list (bytes * bytes) :=
  mjoin (d_callbacks [] (d_entry <$> log)).1.
(** diana_client.cpp:104-125: what the threads insert. *)
Definition d_random (count n_threads : N) (streams : N -> N -> N) : res (list (list (bytes * bytes))) :=
  if count =? 0 then Ok [] else
  logs <~ gen_logs_fl count n_threads streams;
  Ok (d_thread <$> logs).
