(** What update sessions must do when several threads use them. *)
From stdpp Require Import prelude.
From Verif Require Import Base SessModel.
Local Open Scope nat_scope.

(** Executions. *)
Inductive sreach {M} (groups : list (list (list (scall M)))) : sstate M -> Prop :=
| sreach_init : sreach groups (sinit groups)
| sreach_step s t s' : sreach groups s -> sstep s t = Some (Ok s') -> sreach groups s'
| sreach_join s s' : sreach groups s -> sjoin s = Some s' -> sreach groups s'.
(** Nothing is left to be done. *)
Definition sfinished {M} (s : sstate M) : Prop :=
  s_later s = [] /\ Forall (fun th => t_todo th = []) (s_threads s).

(** What a thread reads or writes next, of what is shared and not protected by itself: the three members, and the
    ClientWriters (two calls on the same one must not be concurrent). *)
Inductive sloc := LWriter | LUp | LCtx | LObj (p : nat).
Definition next_access {M} (th : sthread M) : option (sloc * bool) :=
  match t_todo th, t_pc th with
  | [], _ => None
  | SInsert _ :: _, PIdle | SStart :: _, PIdle | SEnd :: _, PIdle => Some (LWriter, false)
  | SSession _ :: _, PIdle | SList _ :: _, PIdle => Some (LUp, false)
  | _, PUnary _ | _, PLock _ | _, PUnlock _ => None
  | _, PSession _ => Some (LUp, false)
  | _, PWriter _ | _, PEnd1 | _, PEnd3 => Some (LWriter, false)
  | _, PWrite p _ | _, PEnd2 p | _, PEnd4 p => Some (LObj p, true)
  | _, PStart1 | _, PEnd6 => Some (LCtx, true)
  | _, PStart2 => Some (LCtx, false)
  | _, PStart3 _ | _, PEnd7 => Some (LWriter, true)
  | _, PStart4 | _, PEnd5 => Some (LUp, true)
  end.
(** Two threads are about to access the same place and one of them writes. *)
Definition srace {M} (s : sstate M) : Prop :=
  exists t t' th th' x w w', t <> t' /\ s_threads s !! t = Some th /\ s_threads s !! t' = Some th' /\
    next_access th = Some (x, w) /\ next_access th' = Some (x, w') /\ (w || w')%bool = true.

(** The documents of a call, and what was sent to the server. *)
Definition call_docs {M} (c : scall M) : list M :=
  match c with SInsert m | SSession m => [m] | SList ms => ms | SStart | SEnd => [] end.
Definition sent {M} (s : sstate M) (m : M) : Prop :=
  m ∈ s_unary s \/ exists p o, s_objs s !! p = Some o /\ m ∈ o_msgs o.
(** What the calls of the groups returned: the group, the thread, the call (the threads of the
    first group, which runs before the others, make no calls). *)
Definition at_call {A} (l : list (list (list A))) (g t i : nat) : option A :=
  match l !! g with Some x => match x !! t with Some y => y !! i | None => None end | None => None end.
Definition returned {M} (s : sstate M) (g t i : nat) : option sout :=
  at_call (s_past s ++ [t_out <$> s_threads s]) g t i.
Definition call_of {M} (groups : list (list (list (scall M)))) (g t i : nat) : option (scall M) :=
  at_call ([] :: groups) g t i.

(** Sessions as their users see them: the messages of the current session, those of the sessions that were ended, the unary
    messages. *)
Record zsess (M : Type) := ZSess { z_cur : option (list M); z_ended : list (list M); z_unary : list M }.
Arguments ZSess {M}.
Arguments z_cur {M}.
Arguments z_ended {M}.
Arguments z_unary {M}.
Definition zcall {M} (z : zsess M) (c : scall M) : zsess M * sout :=
  match c, z_cur z with
  | SInsert m, None => (ZSess None (z_ended z) (z_unary z ++ [m]), SReturn false)
  | SInsert m, Some l | SSession m, Some l => (ZSess (Some (l ++ [m])) (z_ended z) (z_unary z), SReturn false)
  | SList ms, Some l => (ZSess (Some (l ++ ms)) (z_ended z) (z_unary z), SReturn false)
  | SSession _, None | SList _, None => (z, SThrow)
  | SStart, None => (ZSess (Some []) (z_ended z) (z_unary z), SReturn false)
  | SEnd, Some l => (ZSess None (z_ended z ++ [l]) (z_unary z), SReturn false)
  | SStart, Some _ | SEnd, None => (z, SReturn false)
  end.
(** Calls of threads, in some order: the calls, each with the number of its thread; what they
    return. *)
Fixpoint zcalls {M} (z : zsess M) (o : list (nat * scall M)) : zsess M * list (nat * sout) :=
  match o with
  | [] => (z, [])
  | x :: o' =>
      let r := zcall z x.2 in
      let r' := zcalls r.1 o' in
      (r'.1, (x.1, r.2) :: r'.2)
  end.
(** What belongs to a thread. *)
Definition of_thread {A} (t : nat) (l : list (nat * A)) : list A :=
  omap (fun x => if decide (x.1 = t) then Some x.2 else None) l.
(** Each thread makes its calls in order. *)
Definition merges {A} (ps : list (list A)) (o : list (nat * A)) : Prop :=
  forall t, of_thread t o = default [] (ps !! t).
(** Groups of threads one after the other, the calls of each in some order. *)
Inductive zgroups {M} : zsess M -> list (list (list (scall M))) -> zsess M -> list (list (list sout)) -> Prop :=
| zgroups_nil z : zgroups z [] z []
| zgroups_cons z ps gs o outs z' l :
    merges ps o -> length outs = length ps -> merges outs (zcalls z o).2 -> zgroups (zcalls z o).1 gs z' l ->
    zgroups z (ps :: gs) z' (outs :: l).
Definition zinit {M} : zsess M := ZSess None [] [].

(** The sessions are started and ended by a thread that is alone. *)
Definition inserts_only {M} (ps : list (list (scall M))) : Prop :=
  Forall (Forall (fun c => match c with SStart | SEnd => False | _ => True end)) ps.
Definition bracketed {M} (groups : list (list (list (scall M)))) : Prop :=
  Forall (fun ps => length ps <= 1 \/ inserts_only ps) groups.
