(** What optional references should do, from the calls made before (the last one first). *)
From stdpp Require Import prelude gmap.
From Verif Require Import OptRefModel.

Section optref.
  Context {V : Type}.

  (** The object a variable designates: the one it was last bound to. *)
  Fixpoint bound (h : list (rcall V)) (i : nat) : option nat :=
    match h with
    | [] => None
    | c :: h' =>
        match c with
        | RBind k a | REmplace k a => if decide (i = k) then Some a else bound h' i
        | RCopy k j | RAssign k j => bound h' (if decide (i = k) then j else i)
        | RSwap j k => bound h' (if decide (i = j) then k else if decide (i = k) then j else i)
        | RNew k | RNull k | RReset k => if decide (i = k) then None else bound h' i
        | _ => bound h' i
        end
    end.
  (** The variables that exist. *)
  Fixpoint exists_var (h : list (rcall V)) (i : nat) : Prop :=
    match h with
    | [] => False
    | c :: h' =>
        match c with
        | RNew k | RBind k _ | RCopy k _ => i = k \/ exists_var h' i
        | RDel k => i <> k /\ exists_var h' i
        | _ => exists_var h' i
        end
    end.
  (** The value of an object: the one it was created with, or the last one written through a
      reference that designated it. *)
  Fixpoint value_of (h : list (rcall V)) (a : nat) : option V :=
    match h with
    | [] => None
    | c :: h' =>
        match c with
        | ONew b v => if decide (a = b) then Some v else value_of h' a
        | ODie b => if decide (a = b) then None else value_of h' a
        | RWrite i v => if decide (bound h' i = Some a) then Some v else value_of h' a
        | _ => value_of h' a
        end
    end.
  (** The value designated by a variable. *)
  Definition seen (h : list (rcall V)) (i : nat) : option V := bound h i ≫= value_of h.
  (** A variable that designates nothing, or an object that is alive. *)
  Definition safe (h : list (rcall V)) (i : nat) : Prop := bound h i = None \/ is_Some (seen h i).

  (** The calls that a correct program makes after [h]. *)
  Definition may (h : list (rcall V)) (c : rcall V) : Prop :=
    match c with
    | ONew a _ => value_of h a = None
    | ODie a => is_Some (value_of h a)
    | RNew i => ~ exists_var h i
    | RBind i a => ~ exists_var h i /\ is_Some (value_of h a)
    | RCopy i j => ~ exists_var h i /\ exists_var h j
    | RDel i | RNull i | RReset i | RHas i => exists_var h i
    | RAssign i j | RSwap i j => exists_var h i /\ exists_var h j
    | REmplace i a => exists_var h i /\ is_Some (value_of h a)
    | RArrow i => exists_var h i /\ is_Some (bound h i)
    | RDeref i | RWrite i _ => exists_var h i /\ is_Some (seen h i)
    | RValue i | ROr i _ => exists_var h i /\ safe h i
    | REq i j => exists_var h i /\ exists_var h j /\ ((bound h i = None \/ bound h j = None) \/ (is_Some (seen h i) /\ is_Some (seen h j)))
    end.
  Fixpoint correct (h cs : list (rcall V)) : Prop :=
    match cs with [] => True | c :: cs' => may h c /\ correct (c :: h) cs' end.

  (** What a call gives after [h]. *)
  Definition gives (h : list (rcall V)) (c : rcall V) (r : rans V) : Prop :=
    match c with
    | RArrow i => exists a, bound h i = Some a /\ r = RPtr a
    | RDeref i => exists v, seen h i = Some v /\ r = RVal v
    | RValue i => match seen h i with Some v => r = RVal v | None => r = RThrow end
    | RHas i => exists b, r = RBool b /\ (b = true <-> bound h i <> None)
    | ROr i v => match seen h i with Some w => r = RVal w | None => r = RVal v end
    | REq i j => exists b, r = RBool b /\ (b = true <-> (bound h i = None /\ bound h j = None) \/ exists v, seen h i = Some v /\ seen h j = Some v)
    | _ => r = RUnit
    end.
  Fixpoint all_give (h cs : list (rcall V)) (rs : list (rans V)) : Prop :=
    match cs, rs with
    | [], [] => True
    | c :: cs', r :: rs' => gives h c r /\ all_give (c :: h) cs' rs'
    | _, _ => False
    end.
End optref.
