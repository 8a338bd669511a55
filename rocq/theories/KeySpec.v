(** What is expected of the key files. *)
From stdpp Require Import prelude.
From Coq Require Import NArith.
From Verif Require Import Base EncModel KeyModel.

(** Disk after some effects. *)
Definition k_disk (f : kfs) (l : list keffect) : kfs := foldl k_apply f l.

(** An attempt to construct a client: the freshly generated keys, the behaviour of the
    system, and the point where the process dies, if it does ([Some n]: after n
    effects). *)
Record attempt := Attempt {
  at_keys : bytes * bytes * bytes; at_env : kenv; at_read : krenv; at_crash : option nat }.

(** A sequence of attempts on the same path: the disk at the end, and the client that each
    attempt gives, if any. *)
Fixpoint attempts {A} (ctor : attempt -> kfs -> list keffect * res A) (f : kfs) (l : list attempt)
    : kfs * list (option A) :=
  match l with
  | [] => (f, [])
  | a :: l' =>
      let x := ctor a f in
      let f' := match at_crash a with Some n => k_disk f (take n x.1) | None => k_disk f x.1 end in
      let o := match at_crash a, x.2 with None, Ok c => Some c | _, _ => None end in
      let y := attempts ctor f' l' in
      (y.1, o :: y.2)
  end.

(** The constructors of the two schemes. *)
Definition so_ctor {K} (load : bytes -> option K) (a : attempt) : kfs -> list keffect * res (so_keys (K:=K)) :=
  k_runner (fun e => so_init load e (at_keys a).1.1 (at_keys a).1.2 (at_keys a).2) (so_construct load)
    (at_env a) (at_read a).
Definition d_ctor (a : attempt) : kfs -> list keffect * res d_keys :=
  k_runner (fun e => d_init e (at_keys a).1.1 (at_keys a).1.2 (at_keys a).2) d_construct
    (at_env a) (at_read a).

(** Keys have the sizes that the generator gives them. *)
Definition d_sized (a : attempt) : Prop :=
  length (at_keys a).1.1 = 32 /\ length (at_keys a).1.2 = 32 /\ length (at_keys a).2 = 32.
Definition so_sized (a : attempt) : Prop :=
  length (at_keys a).1.2 = 32 /\ length (at_keys a).2 = 32.
(** Assumed of the parser of secret keys: a truncated key is refused, or read as the key
    itself (an end of line may be missing). *)
Definition load_prefix {K} (load : bytes -> option K) (sk : bytes) : Prop :=
  forall n, load (take n sk) = None \/ load (take n sk) = load sk.
