(** Model of the servers of Sophos and Diana when requests and setups run in several threads
    of gRPC.
    Sources: lib/diana/server_runner.cpp, lib/sophos/sophos_server_runner.cpp.

    Simplifications.
    - A step is one use of server_, of token_wrapper_, of the file system or of the mutex; the
      steps are interleaved.
    - What a request does with the core of the server is not modelled here; messages are well
      formed.  flush_server_storage (server_runner.cpp:357-366), which tests server_ itself, is
      left out, and a synchronous search of Diana without matches (217-218) uses server_ too. *)
From stdpp Require Import prelude.
From Coq Require Import NArith.
From Verif Require Import Base EncModel RunnerModel.

(** What a setup does after mkdir: an effect of [RunnerModel], or server_.reset() in the
    handler (server_runner.cpp:150, sophos_server_runner.cpp:125). *)
Inductive action := AEff (e : effect) | AReset.
(** Memory after an action (server_runner.cpp:145-150 and 184, sophos_server_runner.cpp:120-125). *)
Definition act_memory (p : proc) (a : action) : proc :=
  match a with AEff e => in_memory p e | AReset => Proc None (p_wrapper p) end.
(** Disk after an action (server_runner.cpp:145-177, sophos_server_runner.cpp:120-144). *)
Definition act_disk (f : fs) (a : action) : fs := match a with AEff e => on_disk f e | AReset => f end.

(** DianaImpl::setup after mkdir, server_runner.cpp:138-190. *)
Definition d_rest (e : env) (key : bytes) : list action * status :=
  if negb (e_core e) then ((if e_pairs e then [AEff EPairs] else []) ++ [AReset], SFailedPrecondition)
  else if negb (e_open e) then ([AEff EPairs; AEff (EServer [])], SPermissionDenied)
  else if negb (bool_decide (length key = wrapper_key_size))
  then ([AEff EPairs; AEff (EServer []); AEff EKeyOpen], SInvalidArgument)
  else ([AEff EPairs; AEff (EServer []); AEff EKeyOpen] ++
        ((fun b => AEff (EKeyByte b)) <$> take (e_written e) key) ++ [AEff (EWrapper key)], SOk).
(** SophosImpl::setup after mkdir, sophos_server_runner.cpp:113-149. *)
Definition so_rest (valid : bytes -> bool) (e : env) (key : bytes) : list action * status :=
  if negb (e_core e) then ((if e_pairs e then [AEff EPairs] else []) ++ [AReset], SFailedPrecondition)
  else if negb (valid key) then ([AEff EPairs; AReset], SFailedPrecondition)
  else if negb (e_open e) then ([AEff EPairs; AEff (EServer key)], SPermissionDenied)
  else ([AEff EPairs; AEff (EServer key); AEff EKeyOpen] ++ ((fun b => AEff (EKeyByte b)) <$> take (e_written e) key), SOk).

(** A service: the end of its setup, and whether its searches use token_wrapper_
    (server_runner.cpp:215 and 271; sophos_server_runner.cpp:161-246 do not). *)
Record service := Service { v_rest : env -> bytes -> list action * status; v_wrapper : bool }.
(** DianaImpl, server_runner.cpp:101-344. *)
Definition diana_service : service := Service d_rest true.
(** SophosImpl, sophos_server_runner.cpp:76-294. *)
Definition sophos_service (valid : bytes -> bool) : service := Service (so_rest valid) false.

(** The calls: setup, search (both kinds), insert, bulk_insert of [n] messages
    (server_runner.cpp:101-344, sophos_server_runner.cpp:76-294). *)
Inductive call := CSetup (e : env) (key : bytes) | CSearch | CInsert | CBulk (n : nat).

(** Where a thread is; line numbers of server_runner.cpp, then of sophos_server_runner.cpp. *)
Inductive pc :=
| PCheck (e : env) (key : bytes)           (* setup, 109; 84 *)
| PExists (e : env) (key : bytes)          (* 121; 96 *)
| PMkdir (e : env) (key : bytes)           (* 129; 104 *)
| PRun (l : list action) (st : status)     (* 138-188; 113-147 *)
| PSetupEnd (st : status)                  (* returned *)
| PSearch                                  (* search, 207 and 248; 166 and 202 *)
| PWrapper                                 (* 215 and 271; not in Sophos *)
| PServer                                  (* 226 and 280-284; 180 and 231-237 *)
| PLock                                    (* insert, 302; 255 *)
| PInsert                                  (* 304; 257 *)
| PStore                                   (* 312; 265 *)
| PBulk (n : nat)                          (* bulk_insert, 324; 276 *)
| PBulkStore (n : nat)                     (* 334-336; 286-288 *)
| PEnd (st : status).                      (* returned *)
(** The beginning of a call (server_runner.cpp:101-344, sophos_server_runner.cpp:76-294). *)
Definition start (c : call) : pc :=
  match c with CSetup e key => PCheck e key | CSearch => PSearch | CInsert => PLock | CBulk n => PBulk n end.

(** Disk, server_ and token_wrapper_, whether update_mtx_ is held, the threads
    (server_runner_private.hpp:86-93, sophos_server_runner_private.hpp:78-83). *)
Record srv := Srv { v_fs : fs; v_proc : proc; v_held : bool; v_pcs : list pc }.

(** Next thing that thread [i] does: [None] if it has returned or is blocked; undefined
    behaviour if it uses a null pointer (server_runner.cpp:101-344,
    sophos_server_runner.cpp:76-294). *)
Definition sstep (v : service) (s : srv) (i : nat) : option (res srv) :=
  let go f p m q := Some (Ok (Srv f p m (<[i := q]> (v_pcs s)))) in
  let f := v_fs s in let p := v_proc s in let m := v_held s in
  let use (o : option bytes) q := match o with Some _ => go f p m q | None => Some UB end in
  match v_pcs s !! i with
  | None => None
  | Some q =>
      match q with
      | PCheck e key => go f p m (match p_server p with Some _ => PSetupEnd SFailedPrecondition | None => PExists e key end)
      | PExists e key => go f p m (match f with FNone => PMkdir e key | _ => PSetupEnd SAlreadyExists end)
      | PMkdir e key =>
          match f with
          | FNone =>
              if e_mkdir e then go (on_disk f EMkdir) p m (PRun (v_rest v e key).1 (v_rest v e key).2)
              else go f p m (PSetupEnd SPermissionDenied)
          | _ => go f p m (PSetupEnd SPermissionDenied)
          end
      | PRun [] st => go f p m (PSetupEnd st)
      | PRun (a :: l) st => go (act_disk f a) (act_memory p a) m (PRun l st)
      | PSearch =>
          go f p m (match p_server p with Some _ => if v_wrapper v then PWrapper else PServer | None => PEnd SFailedPrecondition end)
      | PWrapper => use (p_wrapper p) PServer
      | PServer => use (p_server p) (PEnd SOk)
      | PLock => if m then None else go f p true PInsert
      | PInsert =>
          match p_server p with Some _ => go f p m PStore | None => go f p false (PEnd SFailedPrecondition) end
      | PStore => match p_server p with Some _ => go f p false (PEnd SOk) | None => Some UB end
      | PBulk n => go f p m (match p_server p with Some _ => PBulkStore n | None => PEnd SFailedPrecondition end)
      | PBulkStore 0 => go f p m (PEnd SOk)
      | PBulkStore (S n) => use (p_server p) (PBulkStore n)
      | PSetupEnd _ | PEnd _ => None
      end
  end.

(** The pointers (server_runner_private.hpp:86-88, sophos_server_runner_private.hpp:78). *)
Inductive ptr := QServer | QWrapper.
(** The use that thread [i] is about to make of a pointer: [true] if it changes it
    (server_runner.cpp:101-344, sophos_server_runner.cpp:76-294). *)
Definition access (s : srv) (i : nat) : option (ptr * bool) :=
  match v_pcs s !! i with
  | Some (PCheck _ _) | Some PSearch | Some PServer | Some PInsert | Some PStore | Some (PBulk _)
  | Some (PBulkStore (S _)) => Some (QServer, false)
  | Some PWrapper => Some (QWrapper, false)
  | Some (PRun (AEff (EServer _) :: _) _) | Some (PRun (AReset :: _) _) => Some (QServer, true)
  | Some (PRun (AEff (EWrapper _) :: _) _) => Some (QWrapper, true)
  | _ => None
  end.
