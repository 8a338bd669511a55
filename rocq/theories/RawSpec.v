(** What is expected of the wrappers of RocksDB: what a key holds after a history of calls. *)
From stdpp Require Import prelude gmap.
From Coq Require Import NArith Lia.
From Verif Require Import Base EncModel RawModel.
Local Open Scope N_scope.

(** * Counters *)
(** The value of a counter after some calls. *)
Definition counts (key : bytes) (v : option N) (c : rcall) : option N :=
  match c with
  | RGet _ => v
  | RGetInc k => if decide (k = key) then Some (match v with Some x => (x + 1) mod 2 ^ 32 | None => 0 end) else v
  | RInc k d => if decide (k = key) then Some (match v with Some x => (x + 1) mod 2 ^ 32 | None => d end) else v
  | RSet k x => if decide (k = key) then Some x else v
  | RRemove k => if decide (k = key) then None else v
  end.
Definition value_after (key : bytes) (cs : list rcall) : option N := foldl (counts key) None cs.
(** The answer to a call made after the calls [cs]. *)
Definition answer_after (cs : list rcall) (c : rcall) : option N :=
  match c with
  | RGet k => value_after k cs
  | RGetInc k => value_after k (cs ++ [c])
  | _ => None
  end.
(** The arguments of type uint32_t. *)
Definition r32 (c : rcall) : Prop :=
  match c with RInc _ x | RSet _ x => x < 2 ^ 32 | _ => True end.

(** * Typed stores *)
(** The key that a call is about. *)
Definition w_key (c : wcall) : bytes :=
  match c with
  | WGetStr k | WGet k _ | WPut k _ | WRemove k => k
  | WGetPtr mem len _ | WRemovePtr mem len => take (N.to_nat len) mem
  end.
Definition is_write (c : wcall) : bool :=
  match c with WPut _ _ | WRemove _ | WRemovePtr _ _ => true | _ => false end.
(** The data of the last call that wrote to the key. *)
Definition stored (key : bytes) (cs : list wcall) : option bytes :=
  match last (filter (fun c => is_write c = true /\ w_key c = key) cs) with
  | Some (WPut _ data) => Some data
  | _ => None
  end.
(** Keys given by a pointer: the length is less than 256 and there are so many bytes. *)
Definition ptr_ok (c : wcall) : Prop :=
  match c with
  | WGetPtr mem len _ | WRemovePtr mem len => len < 256 /\ (N.to_nat len <= length mem)%nat
  | _ => True
  end.
(** All the objects have [size] bytes. *)
Definition typed (size : nat) (c : wcall) : Prop :=
  match c with
  | WGet _ s | WGetPtr _ _ s => s = size
  | WPut _ data => length data = size
  | _ => True
  end.
(** The answer to a call made after the calls [cs]. *)
Definition found_after (cs : list wcall) (c : wcall) : option bytes :=
  if is_write c then None else stored (w_key c) cs.
