(** Model of what the random database generator logs, lib/utils/db_generator.cpp.

    Simplifications.
    - A thread is run alone, as in DbGenModel.v; what it reads of the counter of documents, to
      which the other threads add, is any number.
    - The level of the logger is such that everything is written.
    - The formatting of fmt is that of LogModel.v. *)
From stdpp Require Import prelude strings.
From Coq Require Import ZArith NArith Lia.
From Verif Require Import Base EncModel GenClientModel LogModel DbGenModel.
Local Open Scope N_scope.

(** What a thread does that can be seen: "completed keyword" (db_generator.cpp:224-225 and
    similar), the line of 383-386 with its two arguments, a call of the callback. *)
Inductive gevent :=
| GCompleted (k : kwd)
| GProgress (docs entries : N)
| GCall (k : kwd) (ind : N).
(** Comparison (no counterpart in the code). *)
Global Instance gevent_eq_dec : EqDecision gevent.
Proof. solve_decision. Defined.

(** The order in which the fixed groups are updated, db_generator.cpp:218-364. *)
Definition uorder : list glabel := [G10_1; G20; G30; G60; G10_2; G10_3; G10_4; G10_5; G10_6].
(** The message of one group, e.g. db_generator.cpp:218-229; [g] is the group before. *)
Definition completed (tid i : N) (l : glabel) (g : grp) : list gevent :=
  if (g_counter g <? max_10_counter) && (((i + 1) mod 2 ^ 64) mod gsize l =? 0)
  then [GCompleted (KGroup l tid (g_counter g))] else [].

Section genlog.
  (** As in DbGenModel.v (db_generator.cpp:118-127 and 276). *)
  Variable ngroups : nat -> N.
  Variable below : nat -> N -> bool.

  (** One iteration, db_generator.cpp:166-408, in order; [seen] are the values read at 382, 385
      and 386. *)
  Definition log_iteration (tid ind : N) (seen : N * N * N) (s : tstate) : res (tstate * list gevent) :=
    let gs := tab (fun l => grp_step l (t_i s) (t_groups s l)) in
    x <~ rand_steps ngroups below 0 levels (fun l => g_counter (t_groups s l) <? max_10_counter) tid ind (t_rand s);
    Ok (TS (t_counter s) (t_i s) gs x.1,
        ((fun k => GCall k ind) <$> (percent 1 ind ++ percent 2 (ind / 1000))) ++
        mjoin ((fun l => completed tid (t_i s) l (t_groups s l)) <$> uorder) ++
        (if seen.1.1 mod 1000 =? 0 then [GProgress seen.1.2 seen.2] else []) ++
        ((fun k => GCall k ind) <$> (group_kws gs tid ++ x.2))).

  (** The loop of generation_job, db_generator.cpp:165-409: what is seen, and the last state. *)
  Fixpoint log_loop (fuel : nat) (n step tid : N) (stream : N -> N) (seen : N -> N * N * N) (s : tstate)
      : res (list gevent * tstate) :=
    match fuel with
    | O => OutOfFuel
    | S fuel' =>
        if t_counter s <? n then
          x <~ log_iteration tid (stream (t_i s)) (seen (t_i s)) s;
          y <~ log_loop fuel' n step tid stream seen
                 (TS ((t_counter s + step) mod 2 ^ 64) ((t_i s + 1) mod 2 ^ 64) (t_groups x.1) (t_rand x.1));
          Ok (x.2 ++ y.1, y.2)
        else Ok ([], s)
    end.

  (** MIN, db_generator.cpp:38. *)
  Definition c_min (a b : N) : N := if b <? a then b else a.
  (** The first element, then the others, db_generator.cpp:426-438 and similar: min and non_full. *)
  Definition group_stats (size : N) (v : list N) : res (N * N) :=
    x <~ vat v 0;
    Ok (foldl (fun acc y => (c_min acc.1 y, if y <? size then acc.2 + 1 else acc.2)) (x, if x <? size then 1 else 0) (tail v)).
  (** The text of a level, db_generator.cpp:425-441 and similar. *)
  Definition level_text (lv : nat) (size : N) (v : list N) : res string :=
    if 0 <? ngroups lv then
      s <~ group_stats size v;
      Ok ((match lv with O => "" | _ => "," end) +:+ to_string s.1 +:+ "/" +:+ to_string (ngroups lv) +:+ "/" +:+ to_string s.2)
    else Ok "".
  (** The five levels, db_generator.cpp:425-512. *)
  Fixpoint levels_text (lv : nat) (ls : list (N * N * glabel)) (vs : list (list N)) : res string :=
    match ls, vs with
    | (size, _, _) :: ls', v :: vs' =>
        a <~ level_text lv size v;
        b <~ levels_text (S lv) ls' vs';
        Ok (a +:+ b)
    | _, _ => Ok ""
    end.
  (** The last line of a thread, db_generator.cpp:411-515. *)
  Definition summary (tid : N) (s : tstate) : res string :=
    let c l := to_string (g_counter (t_groups s l)) in
    b <~ levels_text 0 levels (t_rand s);
    Ok ("Random DB generation: thread " +:+ to_string tid +:+ " completed: (" +:+ c G10_1 +:+ ", " +:+ c G10_2 +:+ ", " +:+
        c G10_3 +:+ ", " +:+ c G10_4 +:+ ", " +:+ c G10_5 +:+ ")" +:+ " min rand: (" +:+ b +:+ ")").
  (** generation_job, db_generator.cpp:67-516. *)
  Definition logged_job (n step tid : N) (stream : N -> N) (seen : N -> N * N * N) : res (list gevent * string) :=
    x <~ log_loop (S (N.to_nat n)) n step tid stream seen
      (TS tid 0 (fun _ => Grp 0 None) ((fun lv => replicate (N.to_nat (ngroups lv)) 0) <$> seq 0 5));
    t <~ summary tid x.2;
    Ok (x.1, t).
End genlog.

(** The line of db_generator.cpp:383-386: its format has no place for the two numbers. *)
Definition progress_line (docs entries : N) : option bytes :=
  fmt [str_bytes (to_string docs); str_bytes (to_string entries)]
    (str_bytes "Random DB generation : documents generated ( entries)").
