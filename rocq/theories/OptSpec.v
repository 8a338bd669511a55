(** What is expected of optional values: a variable holds a value or nothing. *)
From stdpp Require Import prelude.
From Coq Require Import ZArith NArith Lia.
From Verif Require Import Base OptModel.
Local Open Scope nat_scope.

Section spec.
  Context {V : Type}.
  Variable moved : V -> V.
  (** The variables: [None] before construction and after destruction. *)
  Implicit Type s : list (option (option V)).
  (** A variable that exists. *)
  Definition lives s (i : nat) : Prop := exists o, s !! i = Some (Some o).
  (** Rules of use of the class. *)
  Definition legal s (c : ocall V) : Prop :=
    match c with
    | ONew i | OOf i _ _ => s !! i = Some None
    | OCopy i j _ | OMove i j _ => s !! i = Some None /\ lives s j
    | ODestroy i | OReset i | OSet i _ _ | OEmplace i _ _ | OValue i | OValueOr i _ | OHas i => lives s i
    | OAssign i j _ | OMoveAssign i j _ | OSwap i j _ => lives s i /\ lives s j
    | OEmplaceFrom i j _ => lives s i /\ i <> j /\ exists v, s !! j = Some (Some (Some v))
    | OGet i => exists v, s !! i = Some (Some (Some v))
    end.
  Definition value s (i : nat) : option V := mjoin (mjoin (s !! i)).
  Definition set s (i : nat) (o : option V) := <[i := Some o]> s.
  (** What is left of a value that was moved, with success or not. *)
  Definition remains (v : V) (f : fails V) : V := match f with NoFail => moved v | Fail _ y => y end.
  Definition outcome (f : fails V) : oans V := match f with NoFail => OUnit | Fail _ _ => OThrow end.
  (** The assignment of a value: the old one is lost if it fails, unless there was none. *)
  Definition assigned (o : option V) (v : V) (f : fails V) : option V :=
    match f with NoFail => Some v | Fail x _ => (fun _ => x) <$> o end.
  (** The effect of a call. *)
  Definition ideal s (c : ocall V) : list (option (option V)) * oans V :=
    match c with
    | ONew i => (set s i None, OUnit)
    | OOf i v f => (match f with NoFail => set s i (Some v) | Fail _ _ => s end, outcome f)
    | OCopy i j f =>
        match value s j with
        | Some v => (match f with NoFail => set s i (Some v) | Fail _ _ => s end, outcome f)
        | None => (set s i None, OUnit)
        end
    | OMove i j f =>
        match value s j with
        | Some v => (set (match f with NoFail => set s i (Some v) | Fail _ _ => s end) j (Some (remains v f)), outcome f)
        | None => (set s i None, OUnit)
        end
    | ODestroy i => (<[i := None]> s, OUnit)
    | OReset i => (set s i None, OUnit)
    | OAssign i j f =>
        match value s j with
        | Some v => (set s i (assigned (value s i) v f), outcome f)
        | None => (set s i None, OUnit)
        end
    | OMoveAssign i j f =>
        match value s j with
        | Some v => (set (set s i (assigned (value s i) v f)) j (Some (remains v f)), outcome f)
        | None => (set s i None, OUnit)
        end
    | OSet i v f => (set s i (assigned (value s i) v f), outcome f)
    | OEmplace i v f => (set s i (match f with NoFail => Some v | Fail _ _ => None end), outcome f)
    | OEmplaceFrom i j f => (set s i (match f with NoFail => value s j | Fail _ _ => None end), outcome f)
    | OSwap i j f =>
        match value s i, value s j, f with
        | None, None, _ => (s, OUnit)
        | o, o', NoFail => (set (set s i o') j o, OUnit)
        | Some _, Some _, Fail x y => (set (set s i (Some x)) j (Some y), OThrow)
        | Some _, None, Fail _ y => (set s i (Some y), OThrow)
        | None, Some _, Fail _ y => (set s j (Some y), OThrow)
        end
    | OGet i => (s, from_option OVal OUnit (value s i))
    | OValue i => (s, from_option OVal OBad (value s i))
    | OValueOr i d => (s, OVal (default d (value s i)))
    | OHas i => (s, OBool (bool_decide (is_Some (value s i))))
    end.
  Fixpoint ideals s (cs : list (ocall V)) : list (option (option V)) * list (oans V) :=
    match cs with
    | [] => (s, [])
    | c :: cs' => let r := ideal s c in let r' := ideals r.1 cs' in (r'.1, r.2 :: r'.2)
    end.
  Fixpoint all_legal s (cs : list (ocall V)) : Prop :=
    match cs with [] => True | c :: cs' => legal s c /\ all_legal (ideal s c).1 cs' end.
  (** The objects that exist: exactly one for each optional that holds a value. *)
  Definition conc (o : option V) : opt V := Opt (bool_decide (is_Some o)) o.
End spec.

(** * Comparisons *)
(** A total preorder, with the six operators that come with it. *)
Definition respects {V} (le : V -> V -> bool) (t_op : cmp -> V -> V -> bool) : Prop :=
  (forall a b, le a b = true \/ le b a = true) /\
  (forall a b c, le a b = true -> le b c = true -> le a c = true) /\
  forall a b,
    t_op CLe a b = le a b /\ t_op CGe a b = le b a /\ t_op CLt a b = negb (le b a) /\ t_op CGt a b = negb (le a b) /\
    t_op CEq a b = le a b && le b a /\ t_op CNe a b = negb (le a b && le b a).
(** Nothing comes before every value. *)
Definition before {V} (le : V -> V -> bool) (x y : option V) : bool :=
  match x, y with None, _ => true | Some _, None => false | Some a, Some b => le a b end.
Definition relation_of {V} (le : V -> V -> bool) (c : cmp) (x y : option V) : bool :=
  match c with
  | CLe => before le x y | CGe => before le y x
  | CLt => negb (before le y x) | CGt => negb (before le x y)
  | CEq => before le x y && before le y x | CNe => negb (before le x y && before le y x)
  end.
Definition operand_of {V} (a : operand V) : option V := match a with Nullopt => None | Value v => Some v | Optional o => o end.
