(** Model of the four programs, src/sophos_client.cpp, src/diana_client.cpp,
    src/sophos_server.cpp and src/diana_server.cpp: their command lines, what they do with
    them, what the clients print and how the signals end the servers.

    Simplifications.
    - getopt is that of the GNU library (words that are no options may be anywhere;
      POSIXLY_CORRECT is not set); std::stod is a parameter.
    - What is done by the runners (RunnerModel.v, SetupModel.v) is only named here: opening,
      loading a file, generating (GenClientModel.v), searching; each may throw.
    - The signals that reach a server are handled one at a time.  Writing a message to the
      log is: taking the mutex of spdlog, writing, releasing it. *)
From stdpp Require Import prelude strings.
From Coq Require Import ZArith NArith Ascii Lia.
From Verif Require Import Base DbGenModel.
Local Open Scope string_scope.
Local Open Scope list_scope.

(** * getopt *)
(** What a call of getopt returns (src/diana_client.cpp:42-43 and similar): an option with its
    argument (empty if it has none), or '?' with the character of optopt. *)
Inductive ev := EvOpt (c : ascii) (arg : string) | EvBad (c : ascii).

(** The second argument "l:b:dr:q" of getopt at src/diana_client.cpp:42 and similar: whether the
    option exists and takes an argument (its character is followed by a colon). *)
Fixpoint find_opt (os : string) (c : ascii) : option bool :=
  match os with
  | EmptyString => None
  | String d os' =>
      if bool_decide (d = c) then Some (match os' with String ":" _ => true | _ => false end)
      else find_opt os' c
  end.
(** The same, where a colon or a semicolon is no option (src/diana_client.cpp:42 and similar). *)
Definition opt_of (os : string) (c : ascii) : option bool :=
  if bool_decide (c = ":"%char \/ c = ";"%char) then None else find_opt os c.

(** The options of one word, without its hyphen: those that are complete, and the one that
    needs the next word (src/diana_client.cpp:42 and similar). *)
Fixpoint cluster (os : string) (w : string) : list ev * option ascii :=
  match w with
  | EmptyString => ([], None)
  | String c w' =>
      match opt_of os c with
      | None => let x := cluster os w' in (EvBad c :: x.1, x.2)
      | Some false => let x := cluster os w' in (EvOpt c "" :: x.1, x.2)
      | Some true =>
          match w' with
          | EmptyString => ([], Some c)
          | _ => ([EvOpt c w'], None)
          end
      end
  end.

(** The calls of getopt until it returns -1, and the words from optind on
    (src/diana_client.cpp:42, 79-81; src/sophos_client.cpp:36, 70-72; src/sophos_server.cpp:47).
    "--" ends the options. *)
Fixpoint scan (os : string) (args : list string) : list ev * list string :=
  match args with
  | [] => ([], [])
  | String "-" (String c w) :: rest =>
      if bool_decide (c = "-"%char /\ w = "") then ([], rest)
      else
        match cluster os (String c w) with
        | (evs, None) => let x := scan os rest in (evs ++ x.1, x.2)
        | (evs, Some o) =>
            match rest with
            | [] => (evs ++ [EvBad o], [])
            | arg :: rest' => let x := scan os rest' in (evs ++ EvOpt o arg :: x.1, x.2)
            end
        end
  | a :: rest => let x := scan os rest in (x.1, a :: x.2)
  end.

(** * Clients *)
(** std::stod (src/diana_client.cpp:60): an exception, a value that is no number or is
    infinite, or the integer part of the value. *)
Inductive stod_res := StodThrows | StodNotFinite | StodValue (trunc : Z).

(** Message on the standard error, src/diana_client.cpp:64-71 and similar. *)
Inductive diag := NeedsArgument (c : ascii) | UnknownOption (c : ascii) | UnknownChar (c : ascii).

(** What becomes of a program before it does anything (src/diana_client.cpp:42-76 and similar): it
    goes on, returns with a message, exits, dies of an exception, or is undefined. *)
Inductive parsed (A : Type) :=
| Go (a : A)
| Leave (status : Z) (d : option diag)
| Dies
| Undef.
Arguments Go {A} a.
Arguments Leave {A} status d.
Arguments Dies {A}.
Arguments Undef {A}.

(** isprint in the C locale (src/diana_client.cpp:67 and similar). *)
Definition isprint (c : ascii) : bool := let n := nat_of_ascii c in bool_decide (32 <= n /\ n <= 126)%nat.
(** The message of src/diana_client.cpp:63-72, src/sophos_client.cpp:54-63, src/sophos_server.cpp:56-64;
    [cs]: the characters of the first test. *)
Definition diagnose (cs : list ascii) (c : ascii) : diag :=
  if bool_decide (c ∈ cs) then NeedsArgument c
  else if isprint c then UnknownOption c else UnknownChar c.

(** The two client programs. *)
Inductive client := SophosC | DianaC.
(** Comparison (no counterpart in the code). *)
Global Instance client_eq_dec : EqDecision client.
Proof. solve_decision. Defined.
(** The string of options, src/sophos_client.cpp:36, src/diana_client.cpp:42. *)
Definition c_optstring (p : client) : string :=
  match p with SophosC => "l:b:o:i:dr:" | DianaC => "l:b:dr:q" end.
(** src/sophos_client.cpp:55-56, src/diana_client.cpp:64-65. *)
Definition c_needs (p : client) : list ascii :=
  match p with
  | SophosC => ["l"; "b"; "t"; "r"]%char
  | DianaC => ["l"; "b"; "o"; "i"; "t"; "r"]%char
  end.
(** src/sophos_client.cpp:77, src/diana_client.cpp:86. *)
Definition c_default_db (p : client) : string := match p with SophosC => "test.csdb" | DianaC => "test.dcdb" end.
(** src/sophos_client.cpp:84-85, src/diana_client.cpp:94-95. *)
Definition c_target (p : client) : string := match p with SophosC => "localhost:4240" | DianaC => "localhost:4240" end.
(** src/sophos_client.cpp:47, src/diana_client.cpp:53. *)
Definition default_file : string := "/Users/raphaelbost/Documents/inverted_index_1000.json".

(** Local variables of main, src/diana_client.cpp:35-40, src/sophos_client.cpp:31-34. *)
Record copts := COpts { o_files : list string; o_db : string; o_rnd : N; o_print : bool }.
(** Their initial values, src/diana_client.cpp:35-40, src/sophos_client.cpp:31-34. *)
Definition copts0 : copts := COpts [] "" 0 true.

Section client.
  Variable stod : string -> stod_res.

  (** static_cast<uint32_t>(std::stod(...)), src/diana_client.cpp:58-62, src/sophos_client.cpp:49-53:
      undefined if the integer part does not fit. *)
  Definition count_of (arg : string) : parsed N :=
    match stod arg with
    | StodThrows => Dies
    | StodNotFinite => Undef
    | StodValue z => if bool_decide (0 <= z < 2 ^ 32)%Z then Go (Z.to_N z) else Undef
    end.

  (** The switch, src/diana_client.cpp:43-75, src/sophos_client.cpp:37-66; [evs] are the values that
      getopt would return if the loop went on.  In sophos_client.cpp
      there is no -q, and -o and -i have no case. *)
  Fixpoint c_switch (p : client) (evs : list ev) (s : copts) : parsed copts :=
    match evs with
    | [] => Go s
    | EvBad c :: _ => Leave 1 (Some (diagnose (c_needs p) c))
    | EvOpt c arg :: evs' =>
        if bool_decide (c = "l"%char) then c_switch p evs' (COpts (o_files s ++ [arg]) (o_db s) (o_rnd s) (o_print s))
        else if bool_decide (c = "b"%char) then c_switch p evs' (COpts (o_files s) arg (o_rnd s) (o_print s))
        else if bool_decide (c = "d"%char) then c_switch p evs' (COpts (o_files s ++ [default_file]) (o_db s) (o_rnd s) (o_print s))
        else if bool_decide (c = "q"%char /\ p = DianaC) then c_switch p evs' (COpts (o_files s) (o_db s) (o_rnd s) false)
        else if bool_decide (c = "r"%char) then
          match count_of arg with
          | Go n => c_switch p evs' (COpts (o_files s) (o_db s) n (o_print s))
          | Leave z d => Leave z d
          | Dies => Dies
          | Undef => Undef
          end
        else Leave 255 None
    end.
End client.

(** What the program asks of its runner: the constructor, load_inverted_index, the session
    with gen_db, search, the destructor (src/diana_client.cpp:92-154, src/sophos_client.cpp:83-139). *)
Inductive act :=
| AOpen (target db : string)
| ALoad (path : string)
| AGenerate (n : N)
| ASearch (kw : string)
| AClose.

(** The actions of main after the options, src/diana_client.cpp:79-154, src/sophos_client.cpp:70-139. *)
Definition c_acts (p : client) (s : copts) (words : list string) : list act :=
  AOpen (c_target p) (if bool_decide (o_db s = "") then c_default_db p else o_db s)
    :: (ALoad <$> o_files s) ++ (if bool_decide (0 < o_rnd s)%N then [AGenerate (o_rnd s)] else [])
    ++ (ASearch <$> words) ++ [AClose].

(** print_callback, src/diana_client.cpp:133-145, src/sophos_client.cpp:115-125: [first] and what was
    written on the standard output. *)
Definition print_one (print : bool) (x : bool * string) (r : N) : bool * string :=
  if print then (false, (if x.1 then x.2 else x.2 +:+ ", ") +:+ to_string r) else x.
(** Carriage return of std::endl (src/diana_client.cpp:128, 151) and of the string of
    src/diana_client.cpp:147. *)
Definition nl : string := String (ascii_of_nat 10) "".
(** What is written for one keyword whose results are received in this order,
    src/diana_client.cpp:127-152, src/sophos_client.cpp:109-132. *)
Definition print_search (print : bool) (results : list N) : string :=
  "-------------- Search --------------" +:+ nl +:+ "Search results: " +:+ nl +:+ "{" +:+
  (foldl (print_one print) (true, "") results).2 +:+ "}" +:+ nl.

(** How a program ends: main returns, or an exception leaves it (std::terminate). *)
Inductive ending := Returns (status : Z) | Terminated.
(** The actions one after the other (src/diana_client.cpp:94-159, src/sophos_client.cpp:84-144);
    [ok i a] is false if the [i]th one throws, [answers i] are the results of a search.
    What was done, what was printed by the searches that returned, how it ended. *)
Fixpoint c_run (ok : nat -> act -> bool) (answers : nat -> list N) (print : bool) (i : nat) (acts : list act)
    : list act * string * ending :=
  match acts with
  | [] => ([], "", Returns 0)
  | a :: acts' =>
      if ok i a then
        let x := c_run ok answers print (S i) acts' in
        (a :: x.1.1, match a with ASearch _ => print_search print (answers i) +:+ x.1.2 | _ => x.1.2 end, x.2)
      else ([a], "", Terminated)
  end.

(** main of the clients, src/diana_client.cpp:25-160, src/sophos_client.cpp:20-145. *)
Definition client_main (stod : string -> stod_res) (ok : nat -> act -> bool) (answers : nat -> list N)
    (p : client) (args : list string) : parsed (list act * string * ending) :=
  let x := scan (c_optstring p) args in
  match c_switch stod p x.1 copts0 with
  | Go s => Go (c_run ok answers (o_print s) 0 (c_acts p s x.2))
  | Leave z d => Leave z d
  | Dies => Dies
  | Undef => Undef
  end.

(** * Servers *)
(** The two server programs. *)
Inductive server := SophosS | DianaS.
(** src/diana_server.cpp:48, src/sophos_server.cpp:47. *)
Definition s_optstring (p : server) : string := match p with SophosS => "b:s" | DianaS => "b:s" end.
(** src/diana_server.cpp:58, src/sophos_server.cpp:57. *)
Definition s_needs (p : server) : list ascii := match p with SophosS => ["i"]%char | DianaS => ["i"]%char end.
(** src/diana_server.cpp:80, src/sophos_server.cpp:79. *)
Definition s_default_db (p : server) : string := match p with SophosS => "test.ssdb" | DianaS => "test.dsdb" end.
(** src/diana_server.cpp:86, src/sophos_server.cpp:86. *)
Definition s_address (p : server) : string := match p with SophosS => "0.0.0.0:4240" | DianaS => "0.0.0.0:4241" end.

(** async_search and server_db, src/diana_server.cpp:45-47; the switch, src/diana_server.cpp:49-68,
    src/sophos_server.cpp:48-67. *)
Fixpoint s_switch (p : server) (evs : list ev) (async : bool) (db : string) : parsed (bool * string) :=
  match evs with
  | [] => Go (async, db)
  | EvBad c :: _ => Leave 1 (Some (diagnose (s_needs p) c))
  | EvOpt c arg :: evs' =>
      if bool_decide (c = "b"%char) then s_switch p evs' async arg
      else if bool_decide (c = "s"%char) then s_switch p evs' false db
      else Leave 255 None
  end.
(** The address, the database and the mode of the server that is started,
    src/diana_server.cpp:42-87, src/sophos_server.cpp:41-87. *)
Definition server_main (p : server) (args : list string) : parsed (string * string * bool) :=
  match s_switch p (scan (s_optstring p) args).1 true "" with
  | Go x => Go (s_address p, if bool_decide (x.2 = "") then s_default_db p else x.2, x.1)
  | Leave z d => Leave z d
  | Dies => Dies
  | Undef => Undef
  end.

(** ** Signals *)
(** The steps of main once the options are right (src/diana_server.cpp:31-96,
    src/sophos_server.cpp:30-99). *)
Inductive mstep :=
| MHandlers            (* std::signal, src/diana_server.cpp:36-38 *)
| MLogLock | MLogUnlock  (* a message, src/diana_server.cpp:71-84, 93 *)
| MNew                 (* the constructor of the runner, src/diana_server.cpp:86: BuildAndStart
                          gives a null pointer if it cannot listen (server_runner.cpp:408-416) *)
| MAssign              (* g_diana_server_ptr_ = ..., src/diana_server.cpp:85 *)
| MAsync               (* set_async_search, src/diana_server.cpp:87 *)
| MWait                (* wait, src/diana_server.cpp:89, server_runner.cpp:431-434 *)
| MCleanup.            (* cleanup_crypto_lib, src/diana_server.cpp:91 *)
(** src/diana_server.cpp:36-93, src/sophos_server.cpp:35-96. *)
Definition main_steps : list mstep :=
  [MHandlers; MLogLock; MLogUnlock; MLogLock; MLogUnlock; MNew; MAssign; MAsync; MWait; MCleanup;
   MLogLock; MLogUnlock].

(** A server program: the steps that are left; whether the handlers are installed, the mutex
    of the log is held by main, the global pointer is set (src/diana_server.cpp:19, 85), the
    server is listening and was told to stop; how the process ended. *)
Inductive send :=
| SRunning
| SExit            (* main returned 0, src/diana_server.cpp:95 *)
| SKilled          (* by a signal without handler, before src/diana_server.cpp:36 *)
| SStuck           (* the handler waits for a mutex held by the thread it interrupted *)
| SUndef.          (* a null server_ is used, server_runner.cpp:433, 438 *)
(** See above (src/diana_server.cpp:19-96). *)
Record sproc := SProc {
  p_left : list mstep; p_handlers : bool; p_log : bool; p_ptr : bool; p_listening : bool; p_stop : bool; p_end : send
}.
(** src/diana_server.cpp:31. *)
Definition sproc0 : sproc := SProc main_steps false false false false false SRunning.

(** One step of main (see [mstep]); [listens]: whether the port can be bound
    (server_runner.cpp:408-416, sophos_server_runner.cpp:345-355).  wait returns when the
    server was told to stop. *)
Definition main_step (listens : bool) (s : sproc) : option sproc :=
  match p_end s with
  | SRunning =>
      match p_left s with
      | [] => Some (SProc [] (p_handlers s) (p_log s) (p_ptr s) (p_listening s) (p_stop s) SExit)
      | MHandlers :: r => Some (SProc r true (p_log s) (p_ptr s) (p_listening s) (p_stop s) SRunning)
      | MLogLock :: r => Some (SProc r (p_handlers s) true (p_ptr s) (p_listening s) (p_stop s) SRunning)
      | MLogUnlock :: r => Some (SProc r (p_handlers s) false (p_ptr s) (p_listening s) (p_stop s) SRunning)
      | MNew :: r => Some (SProc r (p_handlers s) (p_log s) (p_ptr s) listens (p_stop s) SRunning)
      | MAssign :: r => Some (SProc r (p_handlers s) (p_log s) true (p_listening s) (p_stop s) SRunning)
      | MAsync :: r => Some (SProc r (p_handlers s) (p_log s) (p_ptr s) (p_listening s) (p_stop s) SRunning)
      | MWait :: r =>
          if p_listening s then
            if p_stop s then Some (SProc r (p_handlers s) (p_log s) (p_ptr s) (p_listening s) (p_stop s) SRunning)
            else None
          else Some (SProc (MWait :: r) (p_handlers s) (p_log s) (p_ptr s) (p_listening s) (p_stop s) SUndef)
      | MCleanup :: r => Some (SProc r (p_handlers s) (p_log s) (p_ptr s) (p_listening s) (p_stop s) SRunning)
      end
  | _ => None
  end.

(** A signal handled by the thread of main: exit_handler, src/diana_server.cpp:21-28,
    src/sophos_server.cpp:20-27.  The handler writes to the log, then tells the server to stop if
    the pointer is set. *)
Definition on_signal (s : sproc) : sproc :=
  match p_end s with
  | SRunning =>
      if negb (p_handlers s) then SProc (p_left s) false (p_log s) (p_ptr s) (p_listening s) (p_stop s) SKilled
      else if p_log s then SProc (p_left s) true true (p_ptr s) (p_listening s) (p_stop s) SStuck
      else if p_ptr s then
        if p_listening s then SProc (p_left s) true false true true true SRunning
        else SProc (p_left s) true false true false (p_stop s) SUndef
      else s
  | _ => s
  end.

(** Steps of main and signals, in any order (src/diana_server.cpp:31-96). *)
Inductive sp_step (listens : bool) : sproc -> sproc -> Prop :=
| sp_main s s' : main_step listens s = Some s' -> sp_step listens s s'
| sp_signal s : p_end s = SRunning -> sp_step listens s (on_signal s).
(** Steps of main only (src/diana_server.cpp:31-96). *)
Definition sp_quiet (listens : bool) (s s' : sproc) : Prop := main_step listens s = Some s'.
