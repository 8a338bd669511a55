(** Model of the runners: setup and requests of the servers, sessions and construction
    of the clients, messages.
    Sources: lib/diana/server_runner.cpp, lib/sophos/sophos_server_runner.cpp,
    lib/diana/client_runner.cpp, lib/sophos/sophos_client_runner.cpp.

    Simplifications.
    - gRPC is not modelled: a remote call gives a status; whether a message arrives is a
      parameter.
    - Of the database in pairs.dat (or counters.dat) only the existence is kept here;
      whether RocksDB opens it is a parameter.
    - The bytes of a key file reach the disk one by one; std::ofstream reports no error
      and the code checks none after is_open(). *)
From stdpp Require Import prelude gmap.
From Coq Require Import NArith Lia.
From Verif Require Import Base EncModel KvModel SophosModel DianaModel.
Local Open Scope N_scope.

(** * Servers *)
(** The content of the storage directory: whether pairs.dat is a directory, and the
    content of the key file (tdp_pk.key, sophos_server_runner.cpp:40-41; wrapping.key,
    server_runner.cpp:43-44). *)
Record sdir := SDir { sd_pairs : bool; sd_key : option bytes }.
(** What is at storage_path_: nothing, something else than a directory, a directory
    (utils.cpp:38-57). *)
Inductive fs := FNone | FOther | FDir (d : sdir).

(** The fields server_ and token_wrapper_ of DianaImpl (server_runner_private.hpp:86-88);
    in SophosImpl, server_ contains the public key (sophos_server_runner_private.hpp:78). *)
Record proc := Proc { p_server : option bytes; p_wrapper : option bytes }.
(** A process that is not set up, server_runner.cpp:90-92, sophos_server_runner.cpp:71-73. *)
Definition fresh : proc := Proc None None.

(** grpc::Status codes returned by the servers, server_runner.cpp:101-344,
    sophos_server_runner.cpp:76-294. *)
Inductive status := SOk | SFailedPrecondition | SAlreadyExists | SPermissionDenied | SInvalidArgument.

(** What setup does, in order: mkdir; creation of pairs.dat by RocksDB; server_.reset;
    opening (and truncating) the key file; one byte of it reaching the disk;
    token_wrapper_.reset (server_runner.cpp:129-185, sophos_server_runner.cpp:104-144). *)
Inductive effect := EMkdir | EPairs | EServer (k : bytes) | EKeyOpen | EKeyByte (b : N) | EWrapper (k : bytes).

(** Disk after an effect, server_runner.cpp:129-177, sophos_server_runner.cpp:104-144. *)
Definition on_disk (f : fs) (e : effect) : fs :=
  match e, f with
  | EMkdir, FNone => FDir (SDir false None)
  | EPairs, FDir d => FDir (SDir true (sd_key d))
  | EKeyOpen, FDir d => FDir (SDir (sd_pairs d) (Some []))
  | EKeyByte b, FDir d => FDir (SDir (sd_pairs d) ((fun k => k ++ [b]) <$> sd_key d))
  | _, _ => f
  end.
(** Memory after an effect, server_runner.cpp:145, 184-185, sophos_server_runner.cpp:120. *)
Definition in_memory (p : proc) (e : effect) : proc :=
  match e with
  | EServer k => Proc (Some k) (p_wrapper p)
  | EWrapper k => Proc (p_server p) (Some k)
  | _ => p
  end.

(** How the system calls behave during a setup: mkdir; constructor of the server core
    (DianaServer or SophosServer): whether RocksDB creates pairs.dat, and whether it
    opens it; opening of the key file; number of bytes of the key that reach the disk
    (server_runner.cpp:129-177, sophos_server_runner.cpp:104-144). *)
Record env := Env { e_mkdir : bool; e_pairs : bool; e_core : bool; e_open : bool; e_written : nat }.
(** Everything works in server_runner.cpp:101-190 and sophos_server_runner.cpp:76-149,
    [n] bytes are written. *)
Definition good_env (n : nat) : env := Env true true true true n.

(** crypto::Wrapper::kKeySize: 32 (message of server_runner.cpp:74-76). *)
Definition wrapper_key_size : nat := 32.

(** DianaImpl::setup, server_runner.cpp:101-190: the effects and the status. *)
Definition d_setup (f : fs) (p : proc) (e : env) (key : bytes) : list effect * status :=
  match p_server p with
  | Some _ => ([], SFailedPrecondition)
  | None =>
      match f with
      | FNone =>
          if negb (e_mkdir e) then ([], SPermissionDenied)
          else if negb (e_core e) then (EMkdir :: (if e_pairs e then [EPairs] else []), SFailedPrecondition)
          else if negb (e_open e) then ([EMkdir; EPairs; EServer []], SPermissionDenied)
          else if negb (bool_decide (length key = wrapper_key_size))
          then ([EMkdir; EPairs; EServer []; EKeyOpen], SInvalidArgument)
          else ([EMkdir; EPairs; EServer []; EKeyOpen] ++ (EKeyByte <$> take (e_written e) key) ++ [EWrapper key], SOk)
      | _ => ([], SAlreadyExists)
      end
  end.

(** SophosImpl::setup, sophos_server_runner.cpp:76-149; [valid] tells whether the
    constructor of crypto::TdpMultPool accepts the public key (it throws otherwise, after
    the creation of the database: sophos_server.cpp:34-38). *)
Definition so_setup (valid : bytes -> bool) (f : fs) (p : proc) (e : env) (key : bytes) : list effect * status :=
  match p_server p with
  | Some _ => ([], SFailedPrecondition)
  | None =>
      match f with
      | FNone =>
          if negb (e_mkdir e) then ([], SPermissionDenied)
          else if negb (e_core e) then (EMkdir :: (if e_pairs e then [EPairs] else []), SFailedPrecondition)
          else if negb (valid key) then ([EMkdir; EPairs], SFailedPrecondition)
          else if negb (e_open e) then ([EMkdir; EPairs; EServer key], SPermissionDenied)
          else ([EMkdir; EPairs; EServer key; EKeyOpen] ++ (EKeyByte <$> take (e_written e) key), SOk)
      | _ => ([], SAlreadyExists)
      end
  end.

(** Constructor of DianaImpl, server_runner.cpp:46-94; [opens] tells whether RocksDB
    opens pairs.dat. *)
Definition d_ctor (opens : bool) (f : fs) : res proc :=
  match f with
  | FDir d =>
      match sd_key d with
      | None => Throw RuntimeError
      | Some key =>
          if negb (sd_pairs d) then Throw RuntimeError
          else if negb (bool_decide (length key = wrapper_key_size)) then Throw RuntimeError
          else if opens then Ok (Proc (Some []) (Some key)) else Throw RuntimeError
      end
  | FOther => Throw RuntimeError
  | FNone => Ok fresh
  end.
(** Constructor of SophosImpl, sophos_server_runner.cpp:43-74. *)
Definition so_ctor (valid : bytes -> bool) (opens : bool) (f : fs) : res proc :=
  match f with
  | FDir d =>
      match sd_key d with
      | None => Throw RuntimeError
      | Some key =>
          if negb (sd_pairs d) then Throw RuntimeError
          else if opens && valid key then Ok (Proc (Some key) None) else Throw RuntimeError
      end
  | FOther => Throw RuntimeError
  | FNone => Ok fresh
  end.

(** Status of DianaImpl::insert and bulk_insert (server_runner.cpp:296-344),
    SophosImpl::insert and bulk_insert (sophos_server_runner.cpp:249-294), and of both
    SophosImpl searches (161-246), for well-formed messages. *)
Definition answer (p : proc) : status :=
  match p_server p with Some _ => SOk | None => SFailedPrecondition end.
(** DianaImpl::sync_search and async_search, server_runner.cpp:202-293, up to the
    unwrapping: message_to_request dereferences token_wrapper_ (line 377). *)
Definition d_search_answer (p : proc) : res status :=
  match p_server p with
  | None => Ok SFailedPrecondition
  | Some _ => match p_wrapper p with Some _ => Ok SOk | None => UB end
  end.

(** A machine with at most one process for the storage path storage_path_
    (server_runner_private.hpp:89, sophos_server_runner_private.hpp:79). *)
Record machine := Machine { m_fs : fs; m_proc : option proc }.
(** What can happen, for a given setup and constructor (server_runner.cpp:46-190,
    sophos_server_runner.cpp:43-149): the process starts (or its
    constructor throws), it answers a setup message, it crashes at any point of a
    setup, it stops. *)
Inductive mevent := MStart (opens : bool) | MSetup (e : env) (key : bytes) | MCrash (e : env) (key : bytes) (k : nat) | MStop.
(** Consequence of an event; the second component is the status of a setup.  Constructor
    and setup as above (server_runner.cpp:46-190, sophos_server_runner.cpp:43-149). *)
Definition mstep (ctor : bool -> fs -> res proc) (setup : fs -> proc -> env -> bytes -> list effect * status)
    (m : machine) (v : mevent) : machine * option status :=
  match v, m_proc m with
  | MStart opens, None =>
      (Machine (m_fs m) (match ctor opens (m_fs m) with Ok p => Some p | _ => None end), None)
  | MSetup e key, Some p =>
      let r := setup (m_fs m) p e key in
      (Machine (foldl on_disk (m_fs m) r.1) (Some (foldl in_memory p r.1)), Some r.2)
  | MCrash e key k, Some p =>
      (Machine (foldl on_disk (m_fs m) (take k (setup (m_fs m) p e key).1)) None, None)
  | MStop, _ => (Machine (m_fs m) None, None)
  | _, _ => (m, None)
  end.
(** A sequence of events: the statuses of the setups, and the last state
    (server_runner.cpp:46-190, sophos_server_runner.cpp:43-149). *)
Fixpoint mrun (ctor : bool -> fs -> res proc) (setup : fs -> proc -> env -> bytes -> list effect * status)
    (m : machine) (vs : list mevent) : machine * list status :=
  match vs with
  | [] => (m, [])
  | v :: vs' =>
      let r := mstep ctor setup m v in
      let r' := mrun ctor setup r.1 vs' in
      (r'.1, match r.2 with Some s => s :: r'.2 | None => r'.2 end)
  end.

(** * Client sessions *)
(** The fields of a client runner: the counters of client_, whether
    bulk_update_state_.writer is set, bulk_update_state_.is_up
    (client_runner.hpp:97-107, sophos_client_runner.hpp:78-89). *)
Record runner := Runner { r_counters : counters; r_writer : bool; r_up : bool }.

(** start_update_session, sophos_client_runner.cpp:343-357, client_runner.cpp:395-409. *)
Definition start_session (r : runner) : runner :=
  if r_writer r then r else Runner (r_counters r) true true.
(** end_update_session, sophos_client_runner.cpp:359-380, client_runner.cpp:411-433. *)
Definition end_session (r : runner) : runner :=
  if r_writer r then Runner (r_counters r) false false else r.

Section sophos.
  Variable S : sophos.
  (** SophosClientRunner::insert_in_session, sophos_client_runner.cpp:326-341: the state
      afterwards, and the message written or the exception. *)
  Definition so_insert_in_session (r : runner) (kw : bytes) (index : N) : runner * res so_update :=
    let x := so_insertion_request S (r_counters r) kw index in
    let r' := Runner x.1 (r_writer r) (r_up r) in
    if r_up r then (r', Ok x.2) else (r', Throw RuntimeError).
  (** SophosClientRunner::insert, sophos_client_runner.cpp:303-324. *)
  Definition so_runner_insert (r : runner) (kw : bytes) (index : N) : runner * res so_update :=
    if r_writer r then so_insert_in_session r kw index
    else
      let x := so_insertion_request S (r_counters r) kw index in
      (Runner x.1 (r_writer r) (r_up r), Ok x.2).
End sophos.

Section diana.
  Variable D : diana.
  (** DianaClientRunner::insert_in_session, client_runner.cpp:350-365. *)
  Definition d_insert_in_session (r : runner) (kw doc : bytes) : runner * res (list d_update) :=
    let x := d_insertion_request D (r_counters r) kw doc in
    let r' := Runner x.1 (r_writer r) (r_up r) in
    if r_up r then (r', Ok [x.2]) else (r', Throw RuntimeError).
  (** DianaClientRunner::insert_in_session on a list, client_runner.cpp:368-393: the
      requests that it tries to write, in order. *)
  Definition d_insert_list_in_session (r : runner) (l : list (bytes * bytes)) : runner * res (list d_update) :=
    if r_up r then
      let x := d_bulk_request D (r_counters r) l in
      (Runner x.1 (r_writer r) (r_up r), Ok x.2)
    else (r, Throw RuntimeError).
  (** DianaClientRunner::insert, client_runner.cpp:326-348. *)
  Definition d_runner_insert (r : runner) (kw doc : bytes) : runner * res (list d_update) :=
    if r_writer r then d_insert_in_session r kw doc
    else
      let x := d_insertion_request D (r_counters r) kw doc in
      (Runner x.1 (r_writer r) (r_up r), Ok [x.2]).
  (** DianaImpl::sync_search, server_runner.cpp:202-240: what is written to the client
      when the threads of search_parallel have finished in state [s]; the documents are
      64-bit. *)
  Definition d_sync_result (count : N) (s : d_par) : list bytes :=
    d_result_vector D (replicate (N.to_nat count) (replicate (d_len D) 0)) count (dp_log s).
End diana.

(** * Construction of the clients *)
(** The directory of a client: whether all the key files are there with the right
    sizes, and whether counters.dat is a directory (client_runner.cpp:69-121,
    sophos_client_runner.cpp:128-174). *)
Record cdir := CDir { cd_keys : bool; cd_counters : bool }.
(** What is at the path of the client (utils.cpp:38-57). *)
Inductive cfs := CNone | COther | CDirectory (d : cdir).
(** How the system calls behave during the construction: mkdir, writing the key files,
    creating counters.dat, opening counters.dat (client_runner.cpp:55-235,
    sophos_client_runner.cpp:57-220). *)
Record cenv := CEnv { ce_mkdir : bool; ce_keys : bool; ce_counters : bool; ce_opens : bool }.
(** Constructor of SophosClientRunner, sophos_client_runner.cpp:57-229, and of
    DianaClientRunner, client_runner.cpp:55-247.  [setup_call] is the remote call: the
    machine of the server afterwards, and whether the status is OK. *)
Definition client_ctor {M : Type} (setup_call : M -> M * bool) (f : cfs) (m : M) (e : cenv) : cfs * M * res unit :=
  match f with
  | CDirectory d =>
      if cd_keys d && cd_counters d && ce_opens e then (f, m, Ok tt) else (f, m, Throw RuntimeError)
  | COther => (f, m, Throw RuntimeError)
  | CNone =>
      if negb (ce_mkdir e) then (f, m, Throw RuntimeError)
      else if negb (ce_keys e) then (CDirectory (CDir false false), m, Throw RuntimeError)
      else if negb (ce_counters e) then (CDirectory (CDir true false), m, Throw RuntimeError)
      else
        let r := setup_call m in
        (CDirectory (CDir true true), r.1, if r.2 : bool then Ok tt else Throw RuntimeError)
  end.

(** * Messages *)
(** std::copy from a protobuf bytes field to a std::array of [n] bytes: writing past the
    end is undefined; if the field is short the rest of the array is not initialised
    ([junk]).  Used in sophos_server_runner.cpp:316-318, 328-330, server_runner.cpp:380, 391-393. *)
Definition copy_to_array (n : nat) (junk : bytes) (field : bytes) : res bytes :=
  if (n <? length field)%nat then UB else Ok (field ++ drop (length field) junk).
(** std::copy of the first [n] bytes of a field: reading past its end is undefined
    (sophos_server_runner.cpp:313-315). *)
Definition copy_first (n : nat) (field : bytes) : res bytes :=
  if (length field <? n)%nat then UB else Ok (take n field).

(** UpdateRequestMessage, sophos.proto:39-43, diana.proto:45-49. *)
Record umsg := UMsg { um_token : bytes; um_index : N }.
(** SearchRequestMessage of Sophos, sophos.proto:27-32. *)
Record so_smsg := SoSMsg { sm_token : bytes; sm_key : bytes; sm_count : N }.
(** request_to_message, sophos_client_runner.cpp:443-451, client_runner.cpp:513-522. *)
Definition update_to_message (token : bytes) (index : N) : umsg := UMsg token index.
(** message_to_request, sophos_server_runner.cpp:323-333, server_runner.cpp:385-396:
    token (kUpdateTokenSize = 16 bytes) and index. *)
Definition message_to_update (junk : bytes) (m : umsg) : res (bytes * N) :=
  t <~ copy_to_array 16 junk (um_token m) ; Ok (t, um_index m).
(** request_to_message, sophos_client_runner.cpp:432-441. *)
Definition so_search_to_message (r : so_search) : so_smsg := SoSMsg (ss_token r) (ss_key r) (ss_count r).
(** message_to_request, sophos_server_runner.cpp:306-321, with assertions off;
    [token_size] is crypto::Tdp::kMessageSize, kDerivationKeySize is 32. *)
Definition so_message_to_search (token_size : nat) (junk : bytes) (m : so_smsg) : res so_search :=
  k <~ copy_first 32 (sm_key m) ;
  t <~ copy_to_array token_size junk (sm_token m) ;
  Ok (SoSearch t k (sm_count m)).
(** message_to_request, server_runner.cpp:368-383, without the unwrapping: the array
    kw_token (kKeywordTokenSize = 32 bytes, types.hpp:31). *)
Definition d_message_kw_token (junk : bytes) (field : bytes) : res bytes := copy_to_array 32 junk field.
(** DianaClientRunner::send_setup, client_runner.cpp:256-276: the remote call, on the
    machine of the server; it fails if no server runs. *)
Definition d_setup_call (e : env) (key : bytes) (m : machine) : machine * bool :=
  let r := mstep d_ctor d_setup m (MSetup e key) in
  (r.1, match r.2 with Some SOk => true | _ => false end).
