(** What is expected of the random database generator. *)
From stdpp Require Import prelude strings.
From Coq Require Import NArith.
Local Open Scope N_scope.

(** A generated database: the calls (keyword, document) of the callback. *)
Definition times (w : string) (calls : list (string * N)) : nat :=
  length (filter (fun c => c.1 = w) calls).
(** Calls for a keyword that starts with a prefix. *)
Definition calls_with (pre : string) (calls : list (string * N)) : nat :=
  length (filter (fun c => String.prefix pre c.1 = true) calls).
(** The groups announced by their names (lib/utils/db_generator.cpp:59-60, 219-359) and
    the number of documents the name promises. *)
Definition announced : list (string * N) :=
  [("Group-10^1", 10); ("Group-10^2", 100); ("Group-10^3", 1000); ("Group-10^4", 10000); ("Group-10^5", 100000);
   ("Group-10^6", 1000000); ("Group-20", 20); ("Group-30", 30); ("Group-60", 60)]%string.
(** The random groups (lib/utils/db_generator.cpp:113-155): the documents are put in groups of
    10^d; how many tenths of the documents the groups are meant for, before the margin of 1.2,
    and the factor of the probability to be put in a group, in tenths. *)
Definition rand_groups : list (N * N * N) := [(2, 9, 14); (3, 10, 12); (4, 10, 12); (5, 10, 12); (6, 10, 12)].
(** The percentile keywords (lib/utils/db_generator.cpp:55-57, 171-202): the first part of their
    names, and among how many keywords the documents are shared out. *)
Definition percentiles : list (string * N) := [("0.1", 1000); ("1", 100); ("10", 10)]%string.
