(** Specification of the write-once vector. *)
From stdpp Require Import prelude.
From Coq Require Import ZArith NArith Lia.
From Verif Require Import Base EncModel VecModel.
Local Open Scope nat_scope.

(** An ideal vector: the values pushed, whether it was committed, the mode of
    access, and the number of values for which room was last reserved. *)
Record ivec := IVec { iv_vals : list bytes; iv_done : bool; iv_direct : bool; iv_room : nat }.

Definition ideal_call (s : ivec) (c : vcall) : ivec :=
  match c with
  | VPush al val =>
      if iv_done s || (iv_direct s && negb al) then s
      else IVec (iv_vals s ++ [val]) (iv_done s) (iv_direct s) (iv_room s)
  | VAPush val => IVec (iv_vals s ++ [val]) (iv_done s) (iv_direct s) (iv_room s)
  | VReserve n =>
      if iv_done s then s
      else if decide (length (iv_vals s) < n) then IVec (iv_vals s) (iv_done s) (iv_direct s) n else s
  | VCommit => IVec (iv_vals s) true (iv_direct s) (iv_room s)
  | VDirect flag => IVec (iv_vals s) (iv_done s) flag (iv_room s)
  | VGet _ | VComplete _ => s
  end.
Definition ideal_calls (s : ivec) (cs : list vcall) : ivec := foldl ideal_call s cs.

(** Right answer to a call made in state [s]. *)
Definition answer (s : ivec) (c : vcall) (o : res vout) : Prop :=
  match c with
  | VPush al _ =>
      if iv_done s then o = Throw RuntimeError
      else if iv_direct s && negb al then o = Throw InvalidArgument
      else o = Ok (OIdx (length (iv_vals s)))
  | VAPush _ => o = Ok (OIdx (length (iv_vals s)))
  | VGet i =>
      if iv_done s then
        match iv_vals s !! i with Some b => o = Ok (OVal b) | None => exists e, o = Throw e end
      else exists e, o = Throw e
  | VReserve _ | VCommit | VDirect _ | VComplete _ => o = Ok OUnit
  end.
Fixpoint answers (s : ivec) (cs : list vcall) (os : list (res vout)) : Prop :=
  match cs, os with
  | [], [] => True
  | c :: cs', o :: os' => answer s c o /\ answers (ideal_call s c) cs' os'
  | _, _ => False
  end.

(** Histories of synchronous calls: values have the right size, the mode of access
    is only changed after the commit, and the entry that follows the last one is
    not read while room is reserved for it. *)
Definition sync_call (sz : nat) (s : ivec) (c : vcall) : Prop :=
  match c with
  | VPush _ val => length val = sz
  | VAPush _ => False
  | VDirect _ => iv_done s = true
  | VGet i => i = length (iv_vals s) -> iv_room s <= length (iv_vals s)
  | VReserve _ | VCommit | VComplete _ => True
  end.
Fixpoint sync_history (sz : nat) (s : ivec) (cs : list vcall) : Prop :=
  match cs with
  | [] => True
  | c :: cs' => sync_call sz s c /\ sync_history sz (ideal_call s c) cs'
  end.

(** Histories of asynchronous pushes. *)
Definition async_call (sz : nat) (c : vcall) : Prop :=
  match c with
  | VAPush val => length val = sz
  | VReserve _ | VComplete _ => True
  | _ => False
  end.

Definition empty_ivec (direct : bool) : ivec := IVec [] false direct 0.
