(** Model of the loggers, of the benchmarks and of the texts written on streams.
    Sources: lib/utils/logger.cpp, lib/include/sse/schemes/utils/logger.hpp,
    lib/utils/utils.cpp and lib/include/sse/schemes/utils/utils.hpp.

    Simplifications.
    - spdlog is a registry of names: making a logger whose name is registered throws, as in
      spdlog 1.x.  Levels and sinks are left out.
    - Of fmt, the replacement fields are "{d}" with one digit d, and "{{", "}}"; anything else
      that starts with a brace is an error, which spdlog catches: no line is written.
    - The clock is a number given with each call that reads it.
    - Of a stream, the base, the fill character and the width; the other flags are the
      default ones. *)
From stdpp Require Import prelude strings.
From Coq Require Import ZArith NArith Lia.
From Verif Require Import Base EncModel UtilsModel DbGenModel GenClientModel.
Local Open Scope N_scope.

(** * Loggers *)
(** A logger: those of logger.cpp:41 and 52, or one of the program. *)
Inductive lgr := Console | Null | Given (n : nat).
(** shared_logger_ (logger.cpp:35), the path of benchmark_logger_ (logger.cpp:62) and the names
    that spdlog knows. *)
Record lstate := LState { l_shared : option lgr; l_bench : option string; l_names : list string }.
(** At the start of the program, logger.cpp:35 and 62. *)
Definition log0 : lstate := LState None None [].
(** A call: logger(), set_logger, set_logging_level, set_benchmark_file
    (logger.hpp:37-40, 47), or the program makes a logger of its own with spdlog. *)
Inductive lcall :=
| LLogger
| LSet (o : option nat)
| LLevel
| LBench (path : string)
| LRegister (name : string).
(** What the caller sees of logger.cpp:37-72. *)
Inductive lans := AnsLogger (l : lgr) | AnsUnit | AnsThrow.

(** logger::logger, logger.cpp:37-44. *)
Definition log_logger (s : lstate) : lstate * lans :=
  match l_shared s with
  | Some l => (s, AnsLogger l)
  | None =>
      if bool_decide ("console"%string ∈ l_names s) then (s, AnsThrow)
      else (LState (Some Console) (l_bench s) ("console"%string :: l_names s), AnsLogger Console)
  end.
(** logger::set_logger, logger.cpp:46-54: when spdlog::create throws nothing is assigned. *)
Definition log_set (s : lstate) (o : option nat) : lstate * lans :=
  match o with
  | Some n => (LState (Some (Given n)) (l_bench s) (l_names s), AnsUnit)
  | None =>
      if bool_decide ("null_logger"%string ∈ l_names s) then (s, AnsThrow)
      else (LState (Some Null) (l_bench s) ("null_logger"%string :: l_names s), AnsUnit)
  end.
(** logger::set_logging_level, logger.cpp:56-59: it goes through logger(). *)
Definition log_level (s : lstate) : lstate * lans :=
  let (s', a) := log_logger s in (s', match a with AnsThrow => AnsThrow | _ => AnsUnit end).
(** Benchmark::set_benchmark_file, logger.cpp:64-71. *)
Definition log_bench (s : lstate) (path : string) : lstate * lans :=
  if bool_decide ("benchmark"%string ∈ l_names s) then (s, AnsThrow)
  else (LState (l_shared s) (Some path) ("benchmark"%string :: l_names s), AnsUnit).
(** The calls of logger.hpp:37-47; the last one is made by the program on spdlog. *)
Definition log_call (s : lstate) (c : lcall) : lstate * lans :=
  match c with
  | LLogger => log_logger s
  | LSet o => log_set s o
  | LLevel => log_level s
  | LBench path => log_bench s path
  | LRegister name =>
      if bool_decide (name ∈ l_names s) then (s, AnsThrow)
      else (LState (l_shared s) (l_bench s) (name :: l_names s), AnsUnit)
  end.
(** The state after several calls (logger.hpp:37-47); the program catches the exceptions. *)
Definition log_calls (s : lstate) (cs : list lcall) : lstate :=
  foldl (fun s c => (log_call s c).1) s cs.

(** ** Threads *)
(** Where a thread is in logger(), logger.cpp:37-44: before the test, before the creation, before
    the assignment, before the copy that is returned; then what it got. *)
Inductive tpc := TIdle | TCreate | TAssign | TRead | TGot (l : lgr) | TThrown.
(** The threads, the shared pointer and whether "console" is registered (logger.cpp:35, 41). *)
Record tstate := TState { t_pcs : list tpc; t_shared : option lgr; t_reg : bool }.
(** One step of a thread, logger.cpp:37-44: the registry of spdlog has a mutex; the pointer is
    tested, assigned and copied without one.  A thread that has its answer may call again. *)
Inductive tstep : tstate -> tstate -> Prop :=
| TTest i s : t_pcs s !! i = Some TIdle ->
    tstep s (TState (<[i := match t_shared s with Some _ => TRead | None => TCreate end]> (t_pcs s)) (t_shared s) (t_reg s))
| TMake i s : t_pcs s !! i = Some TCreate ->
    tstep s (TState (<[i := if t_reg s then TThrown else TAssign]> (t_pcs s)) (t_shared s) true)
| TStore i s : t_pcs s !! i = Some TAssign ->
    tstep s (TState (<[i := TRead]> (t_pcs s)) (Some Console) (t_reg s))
| TCopy i s l : t_pcs s !! i = Some TRead -> t_shared s = Some l ->
    tstep s (TState (<[i := TGot l]> (t_pcs s)) (t_shared s) (t_reg s))
| TAgain i s l : t_pcs s !! i = Some (TGot l) ->
    tstep s (TState (<[i := TIdle]> (t_pcs s)) (t_shared s) (t_reg s))
| TRetry i s : t_pcs s !! i = Some TThrown ->
    tstep s (TState (<[i := TIdle]> (t_pcs s)) (t_shared s) (t_reg s)).
(** [n] threads about to call logger() for the first time (logger.cpp:35-37). *)
Definition fresh (n : nat) : tstate := TState (replicate n TIdle) None false.
(** The same when the pointer was assigned before (logger.cpp:41, 49 or 51). *)
Definition ready (n : nat) (l : lgr) (reg : bool) : tstate := TState (replicate n TIdle) (Some l) reg.

(** * Benchmarks *)
(** The members of Benchmark but the format, logger.hpp:65-69. *)
Record bench := Bench { b_count : N; b_stopped : bool; b_begin : Z; b_end : Z }.
(** Benchmark::Benchmark, logger.cpp:74-78 ([b_end] is the default time point). *)
Definition b_new (now : Z) : bench := Bench 0 false now 0.
(** Benchmark::stop, logger.cpp:80-85: [stopped_] is not assigned. *)
Definition b_stop (b : bench) (now : Z) : bench :=
  if b_stopped b then b else Bench (b_count b) (b_stopped b) (b_begin b) now.
(** Benchmark::stop(count), logger.cpp:87-93. *)
Definition b_stop_count (b : bench) (count : N) (now : Z) : bench :=
  if b_stopped b then b else Bench count (b_stopped b) (b_begin b) now.
(** A call made on a benchmark, logger.hpp:52-58. *)
Inductive bcall := BStop (now : Z) | BStopCount (count : N) (now : Z) | BSetCount (count : N).
(** logger.hpp:52-58: [set_count] only assigns the count. *)
Definition b_call (b : bench) (c : bcall) : bench :=
  match c with
  | BStop now => b_stop b now
  | BStopCount count now => b_stop_count b count now
  | BSetCount count => Bench count (b_stopped b) (b_begin b) (b_end b)
  end.
(** What is logged: the count, the time, and the number by which the time is divided
    (logger.cpp:99-110). *)
Record report := Report { r_count : N; r_time : Z; r_div : N }.
(** Benchmark::~Benchmark, logger.cpp:95-111. *)
Definition b_destroy (b : bench) (now : Z) : report :=
  let b' := b_stop b now in
  Report (b_count b') (b_end b' - b_begin b') (if 1 <? b_count b' then b_count b' else 1).
(** The life of a benchmark (logger.cpp:74-111). *)
Definition b_life (t0 : Z) (cs : list bcall) (t1 : Z) : report :=
  b_destroy (foldl b_call (b_new t0) cs) t1.

(** The formatting of fmt (trace of spdlog, logger.cpp:108-109), see the simplifications. *)
Fixpoint fmt (args : list bytes) (s : bytes) : option bytes :=
  match s with
  | [] => Some []
  | c :: s1 =>
      if c =? 123 then
        match s1 with
        | d :: s2 =>
            if d =? 123 then cons 123 <$> fmt args s2
            else
              match s2 with
              | e :: s3 =>
                  if (e =? 125) && (48 <=? d) && (d <=? 57)
                  then a ← args !! N.to_nat (d - 48); app a <$> fmt args s3
                  else None
              | [] => None
              end
        | [] => None
        end
      else if c =? 125 then
        match s1 with
        | d :: s2 => if d =? 125 then cons 125 <$> fmt args s2 else None
        | [] => None
        end
      else cons c <$> fmt args s1
  end.
(** search_JSON_begin, logger.cpp:113-114; 34 is the double quote. *)
Definition json_begin : bytes := str_bytes "{{ " ++ [34] ++ str_bytes "message" ++ [34] ++ str_bytes " : " ++ [34].
(** search_JSON_end, logger.cpp:115-116. *)
Definition json_end : bytes :=
  [34] ++ str_bytes ", " ++ [34] ++ str_bytes "items" ++ [34] ++ str_bytes " : {0}, " ++ [34] ++ str_bytes "time" ++ [34] ++
  str_bytes " : {1}, " ++ [34] ++ str_bytes "time/item" ++ [34] ++ str_bytes " : {2} }}".
(** The line of a SearchBenchmark, logger.cpp:119-122 and 108-109: [None] when nothing is
    written. *)
Definition search_line (message items time per_item : bytes) : option bytes :=
  fmt [items; time; per_item] (json_begin ++ message ++ json_end).

(** * Streams *)
(** A std::ostream (the argument of utils.cpp:215 and 239). *)
Record stm := Stm { o_text : bytes; o_hex : bool; o_fill : N; o_width : nat }.
(** A new std::ostringstream, utils.cpp:207: decimal, filled with spaces. *)
Definition stm0 : stm := Stm [] false 32 0.
(** Writing characters: padding on the left up to the width, which is reset (operator<< of
    utils.cpp:209-210, 218, 243). *)
Definition put (o : stm) (s : bytes) : stm :=
  Stm (o_text o ++ replicate (o_width o - length s) (o_fill o) ++ s) (o_hex o) (o_fill o) 0.
(** Writing a number in the base of the stream, utils.cpp:210, 219, 243; the numbers have at most
    64 bits. *)
Definition put_num (o : stm) (n : N) : stm :=
  put o (if o_hex o then hex_digits 16 n else str_bytes (to_string n)).
(** std::hex, utils.cpp:209, 218. *)
Definition set_hex (o : stm) : stm := Stm (o_text o) true (o_fill o) (o_width o).
(** std::setw, utils.cpp:209, 218: the width of the next output. *)
Definition setw (w : nat) (o : stm) : stm := Stm (o_text o) (o_hex o) (o_fill o) w.
(** std::setfill, utils.cpp:209, 218. *)
Definition setfill (c : N) (o : stm) : stm := Stm (o_text o) (o_hex o) c (o_width o).
(** print_hex of a string, utils.cpp:215-223, and of an array of bytes, utils.hpp:87-95. *)
Definition print_hex (o : stm) (s : bytes) : stm :=
  foldl (fun o c => put_num (setfill 48 (setw 2 (set_hex o))) c) o s.
(** hex_string of a string, utils.cpp:205-213. *)
Definition hex_string (s : bytes) : bytes := o_text (print_hex stm0 s).
(** hex_string of an array of objects of [sz] bytes, utils.hpp:75-84: the elements are converted to
    unsigned char. *)
Definition hex_array (sz : nat) (l : list N) : bytes :=
  o_text (foldl (fun o x => put_num (setfill 48 (setw (2 * sz) (set_hex o))) (x mod 256)) stm0 l).
(** append_keyword_map, utils.cpp:239-244. *)
Definition append_keyword_map (o : stm) (kw : bytes) (index : N) : stm :=
  put (put_num (set_hex (put (put o kw) (str_bytes "       "))) index) [10].
