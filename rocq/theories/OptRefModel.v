(** Model of optional<T&>, lib/include/sse/schemes/utils/optional.hpp:861-984.

    Simplifications.
    - Objects have numbers for addresses; an object is alive when it is in the map.
    - [None] is undefined behaviour: a use of a variable that does not exist, of a reference to
      an object that does not exist any more, and a failed assertion (optional.hpp:224-229),
      which without NDEBUG stops the program.
    - The conversions of types are left out. *)
From stdpp Require Import prelude gmap.
From Verif Require Import Base.

Section optref.
  Context {V : Type} `{!EqDecision V}.

  (** The objects, and the member ref of each variable (optional.hpp:865) that was constructed. *)
  Record rstate := RState { r_objs : gmap nat V; r_vars : gmap nat (option nat) }.

  (** The calls: on objects (no counterpart in the code); then the constructors
      (optional.hpp:869-891) and the destructor (895), the mutations (898-940, 980-983), the
      observers (943-977), a write through the reference (949-953), operator== (996-999). *)
  Inductive rcall :=
  | ONew (a : nat) (v : V) | ODie (a : nat)
  | RNew (i : nat) | RBind (i a : nat) | RCopy (i j : nat) | RDel (i : nat)
  | RNull (i : nat) | RAssign (i j : nat) | REmplace (i a : nat) | RSwap (i j : nat) | RReset (i : nat)
  | RArrow (i : nat) | RDeref (i : nat) | RValue (i : nat) | RHas (i : nat) | ROr (i : nat) (v : V)
  | RWrite (i : nat) (v : V) | REq (i j : nat).
  (** What they give (optional.hpp:943-977); [RThrow]: bad_optional_access (958). *)
  Inductive rans := RUnit | RBool (b : bool) | RPtr (a : nat) | RVal (v : V) | RThrow.

  (** A change of the member ref, e.g. optional.hpp:900. *)
  Definition r_set (s : rstate) (i : nat) (p : option nat) : rstate := RState (r_objs s) (<[i := p]> (r_vars s)).
  (** operator bool, optional.hpp:961-964, and has_value, 966-969. *)
  Definition r_has (p : option nat) : bool := match p with Some _ => true | None => false end.
  (** operator* followed by a read, optional.hpp:949-953. *)
  Definition r_deref (s : rstate) (p : option nat) : option V := a ← p; r_objs s !! a.
  (** operator==, optional.hpp:998. *)
  Definition r_eq (s : rstate) (p q : option nat) : option bool :=
    if negb (Bool.eqb (r_has p) (r_has q)) then Some false
    else if negb (r_has p) then Some true
    else x ← r_deref s p; y ← r_deref s q; Some (bool_decide (x = y)).

  (** One call; the lines are given with the calls above (optional.hpp:861-999). *)
  Definition r_call (s : rstate) (c : rcall) : option (rstate * rans) :=
    match c with
    | ONew a v => match r_objs s !! a with Some _ => None | None => Some (RState (<[a := v]> (r_objs s)) (r_vars s), RUnit) end
    | ODie a => _ ← r_objs s !! a; Some (RState (delete a (r_objs s)) (r_vars s), RUnit)
    | RNew i => match r_vars s !! i with Some _ => None | None => Some (r_set s i None, RUnit) end
    | RBind i a => match r_vars s !! i with Some _ => None | None => _ ← r_objs s !! a; Some (r_set s i (Some a), RUnit) end
    | RCopy i j => match r_vars s !! i with Some _ => None | None => p ← r_vars s !! j; Some (r_set s i p, RUnit) end
    | RDel i => _ ← r_vars s !! i; Some (RState (r_objs s) (delete i (r_vars s)), RUnit)
    | RNull i | RReset i => _ ← r_vars s !! i; Some (r_set s i None, RUnit)
    | RAssign i j => _ ← r_vars s !! i; p ← r_vars s !! j; Some (r_set s i p, RUnit)
    | REmplace i a => _ ← r_vars s !! i; _ ← r_objs s !! a; Some (r_set s i (Some a), RUnit)
    | RSwap i j => p ← r_vars s !! i; q ← r_vars s !! j; Some (r_set (r_set s i q) j p, RUnit)
    | RArrow i => p ← r_vars s !! i; a ← p; Some (s, RPtr a)
    | RDeref i => p ← r_vars s !! i; v ← r_deref s p; Some (s, RVal v)
    | RValue i => p ← r_vars s !! i; if r_has p then v ← r_deref s p; Some (s, RVal v) else Some (s, RThrow)
    | RHas i => p ← r_vars s !! i; Some (s, RBool (r_has p))
    | ROr i v => p ← r_vars s !! i; if r_has p then w ← r_deref s p; Some (s, RVal w) else Some (s, RVal v)
    | RWrite i v => p ← r_vars s !! i; a ← p; _ ← r_objs s !! a; Some (RState (<[a := v]> (r_objs s)) (r_vars s), RUnit)
    | REq i j => p ← r_vars s !! i; q ← r_vars s !! j; b ← r_eq s p q; Some (s, RBool b)
    end.
  (** Calls one after the other (optional.hpp:861-999). *)
  Fixpoint r_calls (s : rstate) (cs : list rcall) : option (rstate * list rans) :=
    match cs with
    | [] => Some (s, [])
    | c :: cs' => '(s', a) ← r_call s c; '(s'', l) ← r_calls s' cs'; Some (s'', a :: l)
    end.
End optref.
Arguments rcall : clear implicits.
Arguments rans : clear implicits.
Arguments rstate : clear implicits.
