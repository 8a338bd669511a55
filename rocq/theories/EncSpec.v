(** Specification of the encoding of lists in pages. *)
From stdpp Require Import prelude gmap.
From Coq Require Import ZArith NArith Lia.
From Verif Require Import Base EncModel.
Local Open Scope nat_scope.

(** The sizes of the key and of the values leave no padding. *)
Definition aligned (p : eparams) : Prop :=
  0 < kp_val p /\ 8 mod kp_val p = 0 /\ kp_key p mod kp_val p = 0 /\
  (Z.of_nat (kp_page p) < 2 ^ 64)%Z.

(** The configurations used in the repository: 8-byte values, keys and pages
    made of whole words. *)
Definition words (p : eparams) : Prop :=
  kp_val p = 8 /\ kp_key p mod 8 = 0 /\ kp_page p mod 8 = 0 /\
  (Z.of_nat (kp_page p) < 2 ^ 64)%Z.

(** A list and the number of entries its allocation grants it in a bin. *)
Record part := Part { pt_key : bytes; pt_vals : list bytes; pt_ai : ainfo }.

Definition obj_ok (p : eparams) (key : bytes) (vals : list bytes) : Prop :=
  length key = kp_key p /\ Forall (fun v => length v = kp_val p) vals.

Definition ai_ok (p : eparams) (vals : list bytes) (ai : ainfo) : Prop :=
  ai_len ai = (Z.of_nat (length vals) + Z.of_nat (list_control p))%Z /\
  (0 <= ai_mine ai)%Z /\ (0 <= ai_dual ai)%Z /\
  (ai_mine ai + ai_dual ai <= ai_len ai)%Z /\ (ai_len ai < 2 ^ 64)%Z.

Definition part_ok (p : eparams) (q : part) : Prop :=
  obj_ok p (pt_key q) (pt_vals q) /\ ai_ok p (pt_vals q) (pt_ai q).

(** How many values a grant of [x] entries can hold. *)
Definition room (p : eparams) (n : nat) (x : Z) : nat :=
  Nat.min (Z.to_nat x - ctl_half p) n.

(** The values of a list that go to a bin: the first or the last ones. *)
Definition kept (p : eparams) (q : part) : list bytes :=
  let r := room p (length (pt_vals q)) (ai_mine (pt_ai q)) in
  match ai_dir (pt_ai q) with
  | Incoming => take r (pt_vals q)
  | Outgoing => drop (length (pt_vals q) - r) (pt_vals q)
  end.

(** Number of entries granted in the page. *)
Definition granted (qs : list part) : Z :=
  foldr (fun q s => ai_mine (pt_ai q) + s)%Z 0%Z qs.

(** A page, as the builder fills it: each list in turn, then the end of block. *)
Fixpoint encode_parts (p : eparams) (buf : bytes) (off : nat) (qs : list part)
  : res (bytes * nat) :=
  match qs with
  | [] => Ok (buf, off)
  | q :: qs' =>
      r <~ encode p buf off (pt_key q) (pt_vals q) (pt_ai q);
      encode_parts p r.1 (off + r.2) qs'
  end.
Definition encode_page (p : eparams) (qs : list part) : res bytes :=
  r <~ encode_parts p (replicate (kp_page p) 255%N) 0 qs;
  f <~ finish_block r.1 r.2 (kp_page p - r.2);
  Ok f.1.

(** What a lookup must return: the kept values of the list of that key. *)
Definition lookup_parts (p : eparams) (key : bytes) (qs : list part) : list bytes :=
  match list_find (fun q => pt_key q = key) qs with
  | Some (_, q) => kept p q
  | None => []
  end.

(** * The stash *)
(** The values of a list that go to neither bin, when the first bin was granted
    [x] entries and the second one [y]. *)
Definition leftover (p : eparams) (vals : list bytes) (x y : Z) : list bytes :=
  let n := length vals in
  take (n - room p n x - room p n y) (drop (room p n x) vals).

Definition stashed (p : eparams) (q : part) : list bytes :=
  leftover p (pt_vals q) (ai_mine (pt_ai q)) (ai_dual (pt_ai q)).

(** The stash file, as the builder writes it. *)
Fixpoint serialize_parts (p : eparams) (qs : list part) : res bytes :=
  match qs with
  | [] => Ok []
  | q :: qs' =>
      b <~ serialize_key_value p (pt_key q) (pt_vals q) (pt_ai q);
      bs <~ serialize_parts p qs';
      Ok (b ++ bs)
  end.

(** What the store must find in the stash for a key. *)
Definition lookup_stash (p : eparams) (key : bytes) (qs : list part) : option (list bytes) :=
  match list_find (fun q => pt_key q = key) qs with
  | Some (_, q) => if decide (stashed p q = []) then None else Some (stashed p q)
  | None => None
  end.
