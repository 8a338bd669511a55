(** Model of the asynchronous lookups: the completion handlers of the two page
    reads, run by two threads whose steps are interleaved.
    Sources: lib/include/sse/schemes/oceanus/cuckoo.hpp:376-452 (CuckooHashTable)
    and lib/include/sse/schemes/tethys/tethys_store.hpp:297-440 (TethysStore). *)
From stdpp Require Import prelude gmap.
From Coq Require Import ZArith NArith Lia.
From Verif Require Import Base GraphModel AllocModel EncModel StoreModel VecModel CuckooModel.
Local Open Scope nat_scope.

(** * CuckooHashTable::async_get *)
(** The state shared by the two handlers, cuckoo.hpp:384-388. *)
Record cshared := CShared { cs_result : option bytes; cs_counter : nat }.

(** Where a handler is in its code, cuckoo.hpp:401-444. *)
Inductive cpc :=
| CCheck                        (* lines 403-411: compare, maybe store the result *)
| CCount                        (* line 414: fetch_add *)
| CTake                         (* line 433: move the result out *)
| CFree (data : option bytes)   (* line 435: delete state *)
| CCall (data : option bytes)   (* lines 437-442: call the user back *)
| CEnd.

(** The request: the serialised key and what each read gives to its handler
    ([None] for a failed read), cuckoo.hpp:396-402. *)
Record creq := CReq { cr_key : bytes; cr_read : bool -> option bytes }.

(** The two handlers, the shared state ([None] once freed) and the calls made to
    the user: the value, or nothing.  cuckoo.hpp:401-444. *)
Record cstate := CState {
  ca_mem : option cshared;
  ca_pc : bool -> cpc;
  ca_calls : list (option bytes)
}.

(** Whether the read of a handler is a match, cuckoo.hpp:403-405. *)
Definition c_matches (q : creq) (i : bool) : bool :=
  match cr_read q i with Some pl => match_key pl (cr_key q) | None => false end.

(** The next step of a handler: accesses to the shared state that are not atomic,
    atomic ones, and its destruction.  cuckoo.hpp:403-435. *)
Inductive access := ANone | AAtomic | APlain | AFree.
(** The access made by the step at [p], cuckoo.hpp:403-435. *)
Definition c_access (q : creq) (i : bool) (p : cpc) : access :=
  match p with
  | CCheck => if c_matches q i then APlain else ANone
  | CCount => AAtomic
  | CTake => APlain
  | CFree _ => AFree
  | CCall _ | CEnd => ANone
  end.
(** Two steps of different threads that may not be concurrent: a data race, which
    is undefined in C++ (cuckoo.hpp:401-444 takes no lock). *)
Definition conflict (a b : access) : bool :=
  match a, b with
  | ANone, _ | _, ANone => false
  | AFree, _ | _, AFree => true
  | APlain, APlain => true
  | _, _ => false
  end.

(** A handler moves on (cuckoo.hpp:401-444, tethys_store.hpp:335-370). *)
Definition set_pc {A} (f : bool -> A) (i : bool) (p : A) : bool -> A :=
  fun j => if bool_decide (j = i) then p else f j.

(** One step of handler [i], cuckoo.hpp:401-444.  A step that races with the next
    step of the other handler, or that uses the state after it was freed, is
    undefined.  A handler that has returned does nothing. *)
Definition c_step (q : creq) (i : bool) (s : cstate) : res cstate :=
  let p := ca_pc s i in
  if conflict (c_access q i p) (c_access q (negb i) (ca_pc s (negb i))) then UB
  else
    match p, ca_mem s with
    | CEnd, _ => Ok s
    | CCheck, m =>
        if c_matches q i then
          match m with
          | Some sh => Ok (CState (Some (CShared (cr_read q i) (cs_counter sh)))
                             (set_pc (ca_pc s) i CCount) (ca_calls s))
          | None => UB
          end
        else Ok (CState m (set_pc (ca_pc s) i CCount) (ca_calls s))
    | CCount, Some sh =>
        Ok (CState (Some (CShared (cs_result sh) (S (cs_counter sh))))
              (set_pc (ca_pc s) i (if bool_decide (cs_counter sh = 1) then CTake else CEnd))
              (ca_calls s))
    | CTake, Some sh =>
        Ok (CState (Some (CShared None (cs_counter sh)))
              (set_pc (ca_pc s) i (CFree (cs_result sh))) (ca_calls s))
    | CFree d, Some sh => Ok (CState None (set_pc (ca_pc s) i (CCall d)) (ca_calls s))
    | CCall d, m =>
        Ok (CState m (set_pc (ca_pc s) i CEnd) (ca_calls s ++ [drop (length (cr_key q)) <$> d]))
    | _, None => UB
    end.

(** A schedule says which handler of cuckoo.hpp:401-444 makes the next step. *)
Fixpoint c_run (q : creq) (sched : list bool) (s : cstate) : res cstate :=
  match sched with
  | [] => Ok s
  | i :: sched' => s' <~ c_step q i s; c_run q sched' s'
  end.

(** The state when both reads were accepted, cuckoo.hpp:399 and 449-451. *)
Definition c_init : cstate := CState (Some (CShared None 0)) (fun _ => CCheck) [].

(** Submission of the two reads, cuckoo.hpp:390-399, 449-451 and
    awonvm_vector.hpp:418-484: what the reads will give, or an exception. *)
Definition ct_async_submit (sz : nat) (hash : bytes -> N * N) (t : ctable) (key : bytes) : res creq :=
  if bool_decide (ct_size t = 0) then UB
  else
    r0 <~ vec_async_get sz (ct_vec t) (ct_loc0 hash t key);
    r1 <~ vec_async_get sz (ct_vec t) (ct_loc1 hash t key);
    Ok (CReq key (fun i : bool => if i then r1 else r0)).

(** * TethysStore::async_get_list *)
(** CallBackState, tethys_store.hpp:384-400 and 417-434; [None] is SIZE_MAX for an
    index and a null pointer for a bucket. *)
Record tshared := TShared {
  th_b0 : option bytes; th_i0 : option nat;
  th_b1 : option bytes; th_i1 : option nat;
  th_counter : nat
}.

(** Where a handler is in its code, tethys_store.hpp:335-370. *)
Inductive tpc :=
| TCount                       (* line 337: fetch_add *)
| TIndex0 | TBucket0           (* lines 340, 341: first to arrive *)
| TIndex1 | TBucket1           (* lines 343, 344: second *)
| TDecode                      (* lines 347-364: read the stash and the buckets *)
| TFree (r : list bytes)       (* line 367: delete state *)
| TCall (r : list bytes)       (* line 368: call the user back *)
| TEnd.

(** The request: what each read gives to its handler and the index of its page,
    tethys_store.hpp:310-323. *)
Record treq := TReq { tr_key : bytes; tr_read : bool -> option bytes; tr_index : bool -> nat }.

(** The two handlers, the shared state ([None] once freed) and the calls made to
    the user, tethys_store.hpp:335-370. *)
Record tstate := TState {
  ta_mem : option tshared;
  ta_pc : bool -> tpc;
  ta_calls : list (list bytes)
}.

(** The decoding by the second handler, tethys_store.hpp:347-364.  Following a null
    pointer is undefined. *)
Definition t_decode (sp : sparams) (s : store) (key : bytes) (sh : tshared) : res (list bytes) :=
  match th_b0 sh, th_b1 sh with
  | Some b0, Some b1 =>
      r <~ decode_list sp key b0 (default 0 (th_i0 sh)) b1 (default 0 (th_i1 sh));
      Ok (r ++ default [] (st_stash s !! key))
  | _, _ => UB
  end.

(** One step of handler [i], tethys_store.hpp:335-370.  Using the state after it
    was freed is undefined.  Unlike above, races are not made undefined here: the
    theorem that the lookup is wrong does not need it, and those that say when it
    is right are stronger without. *)
Definition t_step (sp : sparams) (st : store) (q : treq) (i : bool) (s : tstate) : res tstate :=
  match ta_pc s i, ta_mem s with
  | TEnd, _ => Ok s
  | TCall r, m => Ok (TState m (set_pc (ta_pc s) i TEnd) (ta_calls s ++ [r]))
  | _, None => UB
  | TCount, Some sh =>
      Ok (TState (Some (TShared (th_b0 sh) (th_i0 sh) (th_b1 sh) (th_i1 sh) (S (th_counter sh))))
            (set_pc (ta_pc s) i
               (if bool_decide (S (th_counter sh) = 1) then TIndex0
                else if bool_decide (S (th_counter sh) = 2) then TIndex1 else TEnd)) (ta_calls s))
  | TIndex0, Some sh =>
      Ok (TState (Some (TShared (th_b0 sh) (Some (tr_index q i)) (th_b1 sh) (th_i1 sh) (th_counter sh)))
            (set_pc (ta_pc s) i TBucket0) (ta_calls s))
  | TBucket0, Some sh =>
      Ok (TState (Some (TShared (tr_read q i) (th_i0 sh) (th_b1 sh) (th_i1 sh) (th_counter sh)))
            (set_pc (ta_pc s) i TEnd) (ta_calls s))
  | TIndex1, Some sh =>
      Ok (TState (Some (TShared (th_b0 sh) (th_i0 sh) (th_b1 sh) (Some (tr_index q i)) (th_counter sh)))
            (set_pc (ta_pc s) i TBucket1) (ta_calls s))
  | TBucket1, Some sh =>
      Ok (TState (Some (TShared (th_b0 sh) (th_i0 sh) (tr_read q i) (th_i1 sh) (th_counter sh)))
            (set_pc (ta_pc s) i TDecode) (ta_calls s))
  | TDecode, Some sh =>
      r <~ t_decode sp st (tr_key q) sh;
      Ok (TState (Some sh) (set_pc (ta_pc s) i (TFree r)) (ta_calls s))
  | TFree r, Some sh => Ok (TState None (set_pc (ta_pc s) i (TCall r)) (ta_calls s))
  end.

(** A schedule says which handler of tethys_store.hpp:335-370 makes the next step. *)
Fixpoint t_run (sp : sparams) (st : store) (q : treq) (sched : list bool) (s : tstate) : res tstate :=
  match sched with
  | [] => Ok s
  | i :: sched' => s' <~ t_step sp st q i s; t_run sp st q sched' s'
  end.

(** The state when both reads were accepted, tethys_store.hpp:373, 402-404. *)
Definition t_init : tstate := TState (Some (TShared None None None None 0)) (fun _ => TCount) [].

(** Submission of the two reads, tethys_store.hpp:297-324; [fails i] tells that the
    read of page [i] does not return a whole page. *)
Definition t_submit (sp : sparams) (s : store) (fails : bool -> bool) (key : bytes) : res treq :=
  b <~ get_buckets sp s key;
  Ok (TReq key (fun i : bool => if fails i then None else Some (if i then b.2.1 else b.1.1))
        (fun i : bool => if i then b.2.2 else b.1.2)).
