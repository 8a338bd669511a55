(** What is expected of the programs: the grammar of their command lines, the meaning of the
    options, the text printed for the results, the ports. *)
From stdpp Require Import prelude strings.
From Coq Require Import ZArith NArith Ascii Lia.
From Verif Require Import Base ProgModel.
Local Open Scope string_scope.
Local Open Scope list_scope.

(** * Command lines *)
(** A part of a command line: a word; options without argument in one word ("-dq"); an option
    with an argument after such options, in the same word ("-dlfile") or in two ("-dl",
    "file"). *)
Inductive item :=
| Word (w : string)
| Flags (fs : list ascii)
| WithArg (fs : list ascii) (c : ascii) (arg : string) (attached : bool).

(** The characters as a string. *)
Fixpoint str (l : list ascii) : string :=
  match l with [] => "" | c :: l' => String c (str l') end.

(** A word that is no option. *)
Definition plain (w : string) : Prop := w = "-" \/ String.prefix "-" w = false.
(** [F]: options without argument; [A]: with argument. *)
Definition wf_item (F A : list ascii) (i : item) : Prop :=
  match i with
  | Word w => plain w
  | Flags fs => fs <> [] /\ Forall (fun c => c ∈ F) fs
  | WithArg fs c arg attached => Forall (fun c => c ∈ F) fs /\ c ∈ A /\ (attached = true -> arg <> "")
  end.
Definition render_item (i : item) : list string :=
  match i with
  | Word w => [w]
  | Flags fs => ["-" +:+ str fs]
  | WithArg fs c arg true => ["-" +:+ str fs +:+ String c "" +:+ arg]
  | WithArg fs c arg false => ["-" +:+ str fs +:+ String c ""; arg]
  end.
(** The parts, then "--" and any words. *)
Definition render (items : list item) (tail : option (list string)) : list string :=
  mjoin (render_item <$> items) ++ match tail with None => [] | Some ws => "--" :: ws end.

(** The options in order, with their arguments; the words in order. *)
Definition item_opts (i : item) : list (ascii * string) :=
  match i with
  | Word _ => []
  | Flags fs => (fun c => (c, "")) <$> fs
  | WithArg fs c arg _ => ((fun c => (c, "")) <$> fs) ++ [(c, arg)]
  end.
Definition item_words (i : item) : list string := match i with Word w => [w] | _ => [] end.
Definition options (items : list item) : list (ascii * string) := mjoin (item_opts <$> items).
Definition words (items : list item) (tail : option (list string)) : list string :=
  mjoin (item_words <$> items) ++ default [] tail.

(** The options of the clients: -d (the default file), -q (Diana: print no result);
    -l file, -b database, -r number. *)
Definition c_flags (p : client) : list ascii := match p with SophosC => ["d"]%char | DianaC => ["d"; "q"]%char end.
Definition c_withargs : list ascii := ["l"; "b"; "r"]%char.
(** Those of the servers: -s (synchronous searches), -b database. *)
Definition s_flags : list ascii := ["s"]%char.
Definition s_withargs : list ascii := ["b"]%char.

(** The arguments of all the -r are numbers whose integer part fits in 32 bits. *)
Definition counts_ok (stod : string -> stod_res) (os : list (ascii * string)) : Prop :=
  forall arg, ("r"%char, arg) ∈ os -> exists z, stod arg = StodValue z /\ (0 <= z < 2 ^ 32)%Z.

(** The last argument of an option. *)
Definition last_arg (c : ascii) (os : list (ascii * string)) : option string :=
  snd <$> last (filter (fun o => o.1 = c) os).
(** The files to load. *)
Definition files (os : list (ascii * string)) : list string :=
  omap (fun o => if decide (o.1 = "l"%char) then Some o.2
                 else if decide (o.1 = "d"%char) then Some "/Users/raphaelbost/Documents/inverted_index_1000.json"
                 else None) os.
(** The database: that of the last -b, the default one if it is empty or missing. *)
Definition database_of (dflt : string) (os : list (ascii * string)) : string :=
  match last_arg "b" os with Some "" | None => dflt | Some db => db end.
(** The number of documents to generate. *)
Definition count (stod : string -> stod_res) (os : list (ascii * string)) : N :=
  match last_arg "r" os with
  | Some arg => match stod arg with StodValue z => Z.to_N z | _ => 0 end
  | None => 0
  end%N.

(** What the program does. *)
Definition expected (stod : string -> stod_res) (target dflt : string) (items : list item)
    (tail : option (list string)) : list act :=
  let os := options items in
  [AOpen target (database_of dflt os)] ++ (ALoad <$> files os) ++
  (if decide (count stod os = 0%N) then [] else [AGenerate (count stod os)]) ++
  (ASearch <$> words items tail) ++ [AClose].

(** * Output *)
(** The results between braces, separated by commas. *)
Fixpoint commas (l : list string) : string :=
  match l with
  | [] => ""
  | [x] => x
  | x :: l' => x +:+ ", " +:+ commas l'
  end.
(** The output of the searches among some actions, the first of which has number [i]. *)
Fixpoint outputs (text : list N -> string) (answers : nat -> list N) (i : nat) (acts : list act) : string :=
  match acts with
  | [] => ""
  | ASearch _ :: acts' => text (answers i) +:+ outputs text answers (S i) acts'
  | _ :: acts' => outputs text answers (S i) acts'
  end.

(** * Ports *)
(** What follows the colon of an address. *)
Fixpoint port (a : string) : string :=
  match a with
  | "" => ""
  | String ":" p => p
  | String _ a' => port a'
  end.
(** The server of a client. *)
Definition server_of (p : client) : server := match p with SophosC => SophosS | DianaC => DianaS end.

(** * Signals *)
(** No execution of the program without signals ends it, and none gets wrong. *)
Definition runs_for_ever (listens : bool) (s : sproc) : Prop :=
  forall s', rtc (sp_quiet listens) s s' -> p_end s' = SRunning.
(** Every execution of the program without signals can be continued until it exits. *)
Definition will_exit (listens : bool) (s : sproc) : Prop :=
  forall s', rtc (sp_quiet listens) s s' ->
    exists s'', rtc (sp_quiet listens) s' s'' /\ p_end s'' = SExit.
