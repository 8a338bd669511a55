(** Model of std::experimental::optional as bundled with the library, which passes it to the
    callbacks of the asynchronous requests of Oceanus.
    Source: lib/include/sse/schemes/utils/optional.hpp.

    Simplifications.
    - T is a type of which every operation but destruction may throw, and whose objects hold a
      value; [moved] is the value left in an object that was moved from.  The copies that
      [value_or] and the callers make of what they read do not throw.
    - The overloads for lvalues, rvalues, constants and initializer lists are one function;
      optional<T&> (optional.hpp:860-984) is not modelled.
    - Assertions are compiled out (optional.hpp:224-225): reading an object that does not exist
      is undefined behaviour.  Constructing an object over another one, or abandoning one, is
      not undefined in C++ but loses an object: the result is [None] here too. *)
From stdpp Require Import prelude.
From Coq Require Import ZArith NArith Lia.
From Verif Require Import Base.
Local Open Scope nat_scope.

(** Whether an operation of T throws, with the values then held by the object assigned and by
    the other one: T is arbitrary (optional.hpp:460-461). *)
Inductive fails (V : Type) := NoFail | Fail (x y : V).
Arguments NoFail {V}.
Arguments Fail {V} x y.
(** init_ and storage_, optional.hpp:370-371; the object is that of the union
    (optional.hpp:330-345), [None] when there is none. *)
Record opt (V : Type) := Opt { o_init : bool; o_obj : option V }.
Arguments Opt {V} o_init o_obj.
Arguments o_init {V} o.
Arguments o_obj {V} o.
(** What the caller sees: a value, an exception of T, or bad_optional_access
    (optional.hpp:317-326). *)
Inductive oans {V : Type} := OUnit | OBool (b : bool) | OVal (v : V) | OThrow | OBad.
Arguments oans : clear implicits.
(** The calls, optional.hpp:551-856: constructors (optional(), from a value or in place, copy,
    move), destructor, reset or assignment of nullopt, assignments, emplace with a value or
    with a reference to the object of another optional, swap, and observers. *)
Inductive ocall {V : Type} :=
| ONew (i : nat) | OOf (i : nat) (v : V) (f : fails V) | OCopy (i j : nat) (f : fails V) | OMove (i j : nat) (f : fails V)
| ODestroy (i : nat) | OReset (i : nat)
| OAssign (i j : nat) (f : fails V) | OMoveAssign (i j : nat) (f : fails V) | OSet (i : nat) (v : V) (f : fails V)
| OEmplace (i : nat) (v : V) (f : fails V) | OEmplaceFrom (i j : nat) (f : fails V)
| OSwap (i j : nat) (f : fails V)
| OGet (i : nat) | OValue (i : nat) | OValueOr (i : nat) (v : V) | OHas (i : nat).
Arguments ocall : clear implicits.

Section opt.
  Context {V : Type}.
  Variable moved : V -> V.
  (** The variables of a program: [None] before construction and after destruction
      (optional.hpp:551-604). *)
  Implicit Type s : list (option (opt V)).
  (** A variable that exists (optional.hpp:551-604). *)
  Definition var s (i : nat) : option (opt V) := mjoin (s !! i).
  (** initialized(), optional.hpp:470-473. *)
  Definition is_init s (i : nat) : option bool := o_init <$> var s i.
  (** Assignment of init_, optional.hpp:525, 534, 560 and 569. *)
  Definition set_init s (i : nat) (b : bool) := o ← var s i; Some (<[i := Some (Opt b (o_obj o))]> s).
  (** A change of the object of an optional (storage_.value_, optional.hpp:483-516). *)
  Definition set_obj s (i : nat) (v : option V) := o ← var s i; Some (<[i := Some (Opt (o_init o) v)]> s).
  (** Reading the object: contained_val, optional.hpp:483-516. *)
  Definition t_read s (i : nat) : option V := o ← var s i; o_obj o.
  (** Placement new, optional.hpp:533, 559 and 568: the object exists unless its constructor
      threw. *)
  Definition t_build s (i : nat) (v : V) (f : fails V) : option (list (option (opt V)) * bool) :=
    o ← var s i;
    match o_obj o, f with
    | Some _, _ => None
    | None, NoFail => s' ← set_obj s i (Some v); Some (s', true)
    | None, Fail _ _ => Some (s, false)
    end.
  (** ~T, optional.hpp:405 and 522. *)
  Definition t_destroy s (i : nat) := _ ← t_read s i; set_obj s i None.
  (** Assignment of T, optional.hpp:631, 653 and 666. *)
  Definition t_assign s (i : nat) (v : V) (f : fails V) :=
    _ ← t_read s i; set_obj s i (Some (match f with NoFail => v | Fail x _ => x end)).
  (** What was read is left as it was, or as by std::move (optional.hpp:568, 649, 653, 694 and
      697). *)
  Definition t_left s (j : nat) (v : V) (mv : bool) (f : fails V) :=
    if mv then set_obj s j (Some (match f with NoFail => moved v | Fail _ y => y end)) else Some s.
  (** Whether the operation of T returned (optional.hpp:631-636: no handler). *)
  Definition returned (f : fails V) : bool := match f with NoFail => true | Fail _ _ => false end.
  (** Result of a call made of one operation of T that may throw (optional.hpp:533: no handler). *)
  Definition answer (ok : bool) : oans V := if ok then OUnit else OThrow.

  (** clear, optional.hpp:518-526. *)
  Definition o_clear s (i : nat) :=
    b ← is_init s i; s' ← (if b : bool then t_destroy s i else Some s); set_init s' i false.
  (** initialize, optional.hpp:528-545, with a value. *)
  Definition o_initialize s (i : nat) (v : V) (f : fails V) :=
    '(s', ok) ← t_build s i v f; s'' ← (if ok : bool then set_init s' i true else Some s'); Some (s'', ok).
  (** initialize with the object of an optional (optional.hpp:623, 649, 694 and 697); and the
      bodies of the copy and move constructors (optional.hpp:556-571). *)
  Definition o_initialize_from s (i j : nat) (mv : bool) (f : fails V) :=
    v ← t_read s j; '(s', ok) ← t_build s i v f; s1 ← t_left s' j v mv f;
    s2 ← (if ok : bool then set_init s1 i true else Some s1); Some (s2, ok).
  (** The assignments, optional.hpp:615-657. *)
  Definition o_assign s (i j : nat) (mv : bool) (f : fails V) :=
    bi ← is_init s i; bj ← is_init s j;
    match bi, bj with
    | true, false => s' ← o_clear s i; Some (s', true)
    | false, true => o_initialize_from s i j mv f
    | true, true => v ← t_read s j; s' ← t_assign s i v f; s'' ← t_left s' j v mv f; Some (s'', returned f)
    | false, false => Some (s, true)
    end.
  (** The destructor of the base, optional.hpp:401-408; an object that is still there is lost. *)
  Definition o_destroy s (i : nat) :=
    b ← is_init s i; s' ← (if b : bool then t_destroy s i else Some s);
    match t_read s' i with Some _ => None | None => Some (<[i := None]> s') end.
  (** The variable before a constructor: the base is initialized first (optional.hpp:373, 556
      and 565). *)
  Definition o_fresh s (i : nat) :=
    match s !! i with Some None => Some (<[i := Some (Opt false None)]> s) | _ => None end.
  (** Copy and move constructors, optional.hpp:556-571: the base is destroyed when the body
      throws. *)
  Definition o_construct_from s (i j : nat) (mv : bool) (f : fails V) :=
    bj ← is_init s j; s0 ← o_fresh s i;
    if bj : bool then
      '(s', ok) ← o_initialize_from s0 i j mv f;
      if ok : bool then Some (s', true) else s'' ← o_destroy s' i; Some (s'', false)
    else Some (s0, true).
  (** swap, optional.hpp:689-703. *)
  Definition o_swap s (i j : nat) (f : fails V) :=
    bi ← is_init s i; bj ← is_init s j;
    match bi, bj with
    | true, false => '(s', ok) ← o_initialize_from s j i true f;
        if ok : bool then s'' ← o_clear s' i; Some (s'', true) else Some (s', false)
    | false, true => '(s', ok) ← o_initialize_from s i j true f;
        if ok : bool then s'' ← o_clear s' j; Some (s'', true) else Some (s', false)
    | true, true => v ← t_read s i; w ← t_read s j;
        match f with
        | NoFail => s' ← set_obj s i (Some w); s'' ← set_obj s' j (Some v); Some (s'', true)
        | Fail x y => s' ← set_obj s i (Some x); s'' ← set_obj s' j (Some y); Some (s'', false)
        end
    | false, false => Some (s, true)
    end.
  (** The calls, optional.hpp:551-856. *)
  Definition o_call s (c : ocall V) : option (list (option (opt V)) * oans V) :=
    let fin r := '(s', ok) ← r; Some (s', answer ok) in
    match c with
    | ONew i => s' ← o_fresh s i; Some (s', OUnit)
    | OOf i v f =>
        (* optional.hpp:375-399 and 573-601: no optional when storage_ throws *)
        match s !! i, f with
        | Some None, NoFail => Some (<[i := Some (Opt true (Some v))]> s, OUnit)
        | Some None, Fail _ _ => Some (s, OThrow)
        | _, _ => None
        end
    | OCopy i j f => fin (o_construct_from s i j false f)
    | OMove i j f => fin (o_construct_from s i j true f)
    | ODestroy i => s' ← o_destroy s i; Some (s', OUnit)
    | OReset i => s' ← o_clear s i; Some (s', OUnit)
    | OAssign i j f => fin (o_assign s i j false f)
    | OMoveAssign i j f => fin (o_assign s i j true f)
    | OSet i v f =>
        (* optional.hpp:659-671 *)
        b ← is_init s i;
        if b : bool then s' ← t_assign s i v f; Some (s', answer (returned f)) else fin (o_initialize s i v f)
    | OEmplace i v f => s' ← o_clear s i; fin (o_initialize s' i v f)
    | OEmplaceFrom i j f => s' ← o_clear s i; fin (o_initialize_from s' i j false f)
    | OSwap i j f => fin (o_swap s i j f)
    | OGet i => v ← t_read s i; b ← is_init s i; Some (s, OVal v)
    | OValue i => b ← is_init s i; if b : bool then v ← t_read s i; Some (s, OVal v) else Some (s, OBad)
    | OValueOr i d => b ← is_init s i; if b : bool then v ← t_read s i; Some (s, OVal v) else Some (s, OVal d)
    | OHas i => b ← is_init s i; Some (s, OBool b)
    end.
  (** Successive calls (optional.hpp:551-856). *)
  Fixpoint o_calls s (cs : list (ocall V)) : option (list (option (opt V)) * list (oans V)) :=
    match cs with
    | [] => Some (s, [])
    | c :: cs' => '(s', a) ← o_call s c; '(s'', l) ← o_calls s' cs'; Some (s'', a :: l)
    end.
End opt.

(** * Comparisons *)
(** The operators (optional.hpp:994-1029). *)
Inductive cmp := CEq | CNe | CLt | CGt | CLe | CGe.
(** An operand: nullopt, a value of T, or an optional (optional.hpp:994-1328). *)
Inductive operand {V : Type} := Nullopt | Value (v : V) | Optional (o : option V).
Arguments operand : clear implicits.
Section cmp.
  Context {V : Type}.
  (** The six operators of T, and its hash (optional.hpp:994-1376: those of T are used). *)
  Variables (t_op : cmp -> V -> V -> bool) (t_hash : V -> N).
  (** operator==, optional.hpp:995-999. *)
  Definition oo_eq (x y : option V) : bool :=
    match x, y with Some a, Some b => t_op CEq a b | None, None => true | _, _ => false end.
  (** operator<, optional.hpp:1007-1011. *)
  Definition oo_lt (x y : option V) : bool :=
    match y with None => false | Some b => match x with None => true | Some a => t_op CLt a b end end.
  (** Two optionals, optional.hpp:994-1029: four of the operators are made of the two others. *)
  Definition oo (c : cmp) (x y : option V) : bool :=
    match c with
    | CEq => oo_eq x y | CNe => negb (oo_eq x y)
    | CLt => oo_lt x y | CGt => oo_lt y x | CLe => negb (oo_lt y x) | CGe => negb (oo_lt x y)
    end.
  (** bool(x), optional.hpp:707-710. *)
  Definition engaged (x : option V) : bool := match x with Some _ => true | None => false end.
  (** An optional and nullopt, optional.hpp:1032-1101. *)
  Definition on (c : cmp) (x : option V) : bool :=
    match c with
    | CEq => negb (engaged x) | CNe => engaged x
    | CLt => false | CLe => negb (engaged x) | CGt => engaged x | CGe => true
    end.
  (** nullopt and an optional, optional.hpp:1039-1107. *)
  Definition no (c : cmp) (x : option V) : bool :=
    match c with
    | CEq => negb (engaged x) | CNe => engaged x
    | CLt => engaged x | CLe => true | CGt => false | CGe => negb (engaged x)
    end.
  (** An optional and a value, optional.hpp:1110-1175 (also 1184-1328 for optional<T&>). *)
  Definition ot (c : cmp) (x : option V) (v : V) : bool :=
    match x with
    | Some a => t_op c a v
    | None => match c with CEq => false | CNe => true | CLt => true | CGt => false | CGe => false | CLe => true end
    end.
  (** A value and an optional, optional.hpp:1117-1181 (also 1190-1328 for optional<T&>). *)
  Definition to (c : cmp) (v : V) (x : option V) : bool :=
    match x with
    | Some a => t_op c v a
    | None => match c with CEq => false | CNe => true | CGt => true | CLt => false | CLe => false | CGe => true end
    end.
  (** The overload chosen for two operands, one of which is an optional
      (optional.hpp:994-1328). *)
  Definition compare (c : cmp) (a b : operand V) : option bool :=
    match a, b with
    | Optional x, Optional y => Some (oo c x y)
    | Optional x, Nullopt => Some (on c x)
    | Nullopt, Optional x => Some (no c x)
    | Optional x, Value v => Some (ot c x v)
    | Value v, Optional x => Some (to c v x)
    | _, _ => None
    end.
  (** std::hash, optional.hpp:1356-1366. *)
  Definition o_hash (x : option V) : N := match x with Some v => t_hash v | None => 0 end.
End cmp.
