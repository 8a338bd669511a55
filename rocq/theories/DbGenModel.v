(** Model of the random database generator, lib/utils/db_generator.cpp.

    Simplifications.
    - Threads share the two atomic counters and the callback only; a thread is run
      alone and the results are put together (the order in which callbacks of
      different threads are called is not modelled).
    - The random generator is a stream of numbers, one stream per thread.
    - The floating-point computations (45-53, 118-155, 169) are replaced by parameters:
      the number of random groups of a level and the outcome of the comparison of the
      number drawn with the threshold of the level.  [exact_groups] and [exact_below]
      compute them without rounding, GenFloatModel.v with the rounding of the code.
    - Keywords are not strings: [kw_string] gives the strings.
    - Logging is left out here; it is in GenLogModel.v. *)
From stdpp Require Import prelude strings.
From Coq Require Import ZArith NArith Lia.
From Coq Require Decimal DecimalString.
From Verif Require Import Base.
Local Open Scope N_scope.

(** Bases of the percentile keywords, db_generator.cpp:55-57. *)
Inductive pbase := P01 | P1 | P10.
(** The groups with a fixed size, db_generator.cpp:218-364: their label. *)
Inductive glabel := G10_1 | G20 | G30 | G60 | G10_2 | G10_3 | G10_4 | G10_5 | G10_6.
(** Keywords: KPct (176-181, 193-198), KGroup (219-221 and similar), KRand (280-282 and
    similar; the level is the digit that is printed), KEmpty: the empty string. *)
Inductive kwd :=
| KPct (b : pbase) (ind side : N)
| KGroup (l : glabel) (tid c : N)
| KRand (level tid g : N)
| KEmpty.
(** Comparison (no counterpart in the code). *)
Global Instance pbase_eq_dec : EqDecision pbase.
Proof. solve_decision. Defined.
(** Comparison (no counterpart in the code). *)
Global Instance glabel_eq_dec : EqDecision glabel.
Proof. solve_decision. Defined.
(** Comparison (no counterpart in the code). *)
Global Instance kwd_eq_dec : EqDecision kwd.
Proof. solve_decision. Defined.

(** std::to_string on an unsigned integer, db_generator.cpp:176-198, 219-221. *)
Definition to_string (n : N) : string := DecimalString.NilZero.string_of_uint (N.to_uint n).
(** db_generator.cpp:55-57. *)
Definition pbase_string (b : pbase) : string := match b with P01 => "0.1" | P1 => "1" | P10 => "10" end.
(** Strings of the labels, db_generator.cpp:59-60, 219-359. *)
Definition glabel_string (l : glabel) : string :=
  match l with
  | G10_1 => "Group-10^1" | G20 => "Group-20" | G30 => "Group-30" | G60 => "Group-60"
  | G10_2 => "Group-10^2" | G10_3 => "Group-10^3" | G10_4 => "Group-10^4" | G10_5 => "Group-10^5" | G10_6 => "Group-10^6"
  end.
(** The strings the code builds, db_generator.cpp:176-198, 219-221, 280-282. *)
Definition kw_string (k : kwd) : string :=
  match k with
  | KPct b i s => pbase_string b +:+ "_" +:+ to_string i +:+ "_" +:+ to_string s
  | KGroup l t c => glabel_string l +:+ "_" +:+ to_string t +:+ "_" +:+ to_string c
  | KRand v t g => "Group-rand-10^" +:+ to_string v +:+ "_" +:+ to_string t +:+ "_" +:+ to_string g
  | KEmpty => ""
  end.

(** max_10_counter, db_generator.cpp:63. *)
Definition max_10_counter : N := 2 ^ 32 - 1.

(** Number of documents after which the counter of a group moves on: lines 223, 235,
    246, 257, 268, 292, 315, 337, 361 of db_generator.cpp. *)
Definition gsize (l : glabel) : N :=
  match l with
  | G10_1 => 10 | G20 => 20 | G30 => 30 | G60 => 60
  | G10_2 => 100 | G10_3 => 1000 | G10_4 => 10000 | G10_5 => 100000 | G10_6 => 1000000
  end.

(** A fixed group in a thread: counter_x and the counter printed in kw_x (none when
    the string is empty), db_generator.cpp:82-104. *)
Record grp := Grp { g_counter : N; g_kw : option N }.
(** The update of a group, e.g. db_generator.cpp:218-229; [i] is the loop variable. *)
Definition grp_step (l : glabel) (i : N) (g : grp) : grp :=
  if g_counter g <? max_10_counter
  then Grp (if ((i + 1) mod 2 ^ 64) mod gsize l =? 0 then g_counter g + 1 else g_counter g) (Some (g_counter g))
  else g.

(** The nine pairs of variables (counter, keyword) of db_generator.cpp:82-104, computed
    from [f]. *)
Definition tab (f : glabel -> grp) : glabel -> grp :=
  let g1 := f G10_1 in let g2 := f G20 in let g3 := f G30 in let g4 := f G60 in let g5 := f G10_2 in
  let g6 := f G10_3 in let g7 := f G10_4 in let g8 := f G10_5 in let g9 := f G10_6 in
  fun l => match l with
           | G10_1 => g1 | G20 => g2 | G30 => g3 | G60 => g4 | G10_2 => g5
           | G10_3 => g6 | G10_4 => g7 | G10_5 => g8 | G10_6 => g9
           end.

(** State of a thread in the loop: counter, i, the nine groups, the vectors
    group_rand_10_2 to group_rand_10_6 (db_generator.cpp:79, 157-165). *)
Record tstate := TS {
  t_counter : N; t_i : N; t_groups : glabel -> grp; t_rand : list (list N)
}.

(** The levels with random groups: size, digit printed (281, 304, 326, 349, 373), and
    the fixed group whose counter guards the code (263, 287, 310, 332, 356). *)
Definition levels : list (N * N * glabel) :=
  [(100, 3, G10_2); (1000, 3, G10_3); (10000, 4, G10_4); (100000, 5, G10_5); (1000000, 6, G10_6)].

Section gen.
  (** n_groups_2 to n_groups_6 (118-127); w_d < r_threshold_2 to 6 (276, 299, ...). *)
  Variable ngroups : nat -> N.
  Variable below : nat -> N -> bool.

  (** db_generator.cpp:276-285 and similar: [v] is the vector; a remainder by zero is undefined. *)
  Definition rand_step (lv : nat) (size digit tid ind : N) (v : list N) : res (list N * list kwd) :=
    if below lv ind then
      if ngroups lv =? 0 then UB
      else
        let g := (ind mod ngroups lv) mod 2 ^ 16 in
        x <~ vat v (N.to_nat g);
        if x <? size then Ok (<[N.to_nat g := x + 1]> v, [KRand digit tid g]) else Ok (v, [])
    else Ok (v, []).

  (** The five levels in order, db_generator.cpp:263-378; [ok] tells whether the counter of the fixed
      group allows it. *)
  Fixpoint rand_steps (lv : nat) (ls : list (N * N * glabel)) (ok : glabel -> bool) (tid ind : N)
      (vs : list (list N)) : res (list (list N) * list kwd) :=
    match ls, vs with
    | (size, digit, l) :: ls', v :: vs' =>
        x <~ (if ok l then rand_step lv size digit tid ind v else Ok (v, []));
        y <~ rand_steps (S lv) ls' ok tid ind vs';
        Ok (x.1 :: y.1, x.2 ++ y.2)
    | _, _ => Ok ([], [])
    end.

  (** The keywords of db_generator.cpp:171-202. *)
  Definition percent (side x : N) : list kwd :=
    let ind_01 := x mod 1000 in
    let ind_1 := ind_01 mod 100 in
    let ind_10 := ind_1 mod 10 in
    [KPct P01 ind_01 side; KPct P1 ind_1 side; KPct P10 ind_10 side].

  (** The order of the callbacks for the fixed groups, db_generator.cpp:390-398. *)
  Definition gorder : list glabel := [G10_1; G10_2; G10_3; G10_4; G10_5; G10_6; G20; G30; G60].
  (** The keywords of those callbacks, db_generator.cpp:390-398. *)
  Definition group_kws (gs : glabel -> grp) (tid : N) : list kwd :=
    (fun l => match g_kw (gs l) with Some c => KGroup l tid c | None => KEmpty end) <$> gorder.

  (** One iteration of the loop, db_generator.cpp:166-408: the new state, the callbacks and
      new_entries. *)
  Definition iteration (tid ind : N) (s : tstate) : res (tstate * list (kwd * N) * N) :=
    let gs := tab (fun l => grp_step l (t_i s) (t_groups s l)) in
    x <~ rand_steps 0 levels (fun l => g_counter (t_groups s l) <? max_10_counter) tid ind (t_rand s);
    Ok (TS (t_counter s) (t_i s) gs x.1,
        (fun k => (k, ind)) <$> (percent 1 ind ++ percent 2 (ind / 1000) ++ group_kws gs tid ++ x.2),
        3 + 3 + 9 + N.of_nat (length x.2)).

  (** The loop of generation_job, db_generator.cpp:165-409: callbacks, documents, entries. *)
  Fixpoint job_loop (fuel : nat) (n step tid : N) (stream : N -> N) (s : tstate)
      : res (list (kwd * N) * N * N) :=
    match fuel with
    | O => OutOfFuel
    | S fuel' =>
        if t_counter s <? n then
          x <~ iteration tid (stream (t_i s)) s;
          y <~ job_loop fuel' n step tid stream
                 (TS ((t_counter s + step) mod 2 ^ 64) ((t_i s + 1) mod 2 ^ 64) (t_groups x.1.1) (t_rand x.1.1));
          Ok (x.1.2 ++ y.1.1, 1 + y.1.2, x.2 + y.2)
        else Ok ([], 0, 0)
    end.

  (** generation_job, db_generator.cpp:67-409 (the rest is logging). *)
  Definition generation_job (n step tid : N) (stream : N -> N) : res (list (kwd * N) * N * N) :=
    job_loop (S (N.to_nat n)) n step tid stream
      (TS tid 0 (fun _ => Grp 0 None) ((fun lv => replicate (N.to_nat (ngroups lv)) 0) <$> seq 0 5)).

  (** gen_db, db_generator.cpp:526-539: the threads from [tid] on, [k] of them. *)
  Fixpoint gen_threads (k : nat) (n step tid : N) (streams : N -> N -> N) : res (list (kwd * N) * N * N) :=
    match k with
    | O => Ok ([], 0, 0)
    | S k' =>
        x <~ generation_job n step tid (streams tid);
        y <~ gen_threads k' n step (tid + 1) streams;
        Ok (x.1.1 ++ y.1.1, x.1.2 + y.1.2, x.2 + y.2)
    end.
  (** gen_db, db_generator.cpp:519-548. *)
  Definition gen_db (n n_threads : N) (streams : N -> N -> N) : res (list (kwd * N) * N * N) :=
    gen_threads (N.to_nat n_threads) n n_threads 0 streams.
End gen.

(** size_group_2 to size_group_6, db_generator.cpp:113-117. *)
Definition level_size (lv : nat) : N := nth lv [100; 1000; 10000; 100000; 1000000] 0.
(** Tenths of the fraction, db_generator.cpp:118-127. *)
Definition level_tenths (lv : nat) : N := nth lv [9; 10; 10; 10; 10] 0.
(** Tenths of the factor of the threshold, db_generator.cpp:141-155. *)
Definition level_factor (lv : nat) : N := nth lv [14; 12; 12; 12; 12] 0.
(** optimal_num_group, db_generator.cpp:45-53, without rounding. *)
Definition exact_groups (n step : N) (lv : nat) : N := level_tenths lv * n / (12 * (step * level_size lv)).
(** w_d < r_threshold, db_generator.cpp:141-155, 169, 276, without rounding. *)
Definition exact_below (n step : N) (lv : nat) (ind : N) : bool :=
  ind * 10 * n <? level_factor lv * (exact_groups n step lv * level_size lv * step) * (2 ^ 64 - 1).
