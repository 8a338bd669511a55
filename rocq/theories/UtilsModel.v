(** Model of the small utilities.
    Sources: lib/include/sse/schemes/utils/utils.hpp, lib/utils/utils.cpp,
    lib/include/sse/schemes/utils/concat_iterator.hpp,
    lib/include/sse/schemes/diana/types.hpp, lib/janus/janus_client.cpp. *)
From stdpp Require Import prelude.
From Coq Require Import NArith Lia.
From Verif Require Import Base EncModel.
Local Open Scope N_scope.

(** utility::xor_mask, utils.hpp:35-49.  Shorter masks are excluded by the
    static_assert on line 38. *)
Definition xor_mask (inp : N) (mask : bytes) : N :=
  match mask with
  | m0 :: m1 :: m2 :: m3 :: m4 :: m5 :: m6 :: m7 :: _ =>
      N.lxor (N.lxor (N.lxor (N.lxor (N.lxor (N.lxor (N.lxor (N.lxor inp
        (N.shiftl m0 56)) (N.shiftl m1 48)) (N.shiftl m2 40)) (N.shiftl m3 32))
        (N.shiftl m4 24)) (N.shiftl m5 16)) (N.shiftl m6 8)) m7
  | _ => inp
  end.

(** diana::xor_mask on arrays, types.hpp:110-120: loop over the N bytes; the two
    other overloads (types.hpp:79-108) do the same on the bytes of an object. *)
Definition diana_xor_mask (index mask : bytes) : bytes := zip_with N.lxor index mask.

(** One digit of [std::hex]: '0'-'9' are 48-57, 'a'-'f' are 97-102. *)
Definition hex_digit (d : N) : N := if d <? 10 then 48 + d else 87 + d.
(** [out << std::hex << a]: most significant digit first, no leading zero; the
    first argument bounds the number of digits (64-bit numbers have at most 16). *)
Fixpoint hex_digits (n : nat) (a : N) : bytes :=
  match n with
  | O => []
  | S n' => if a <? 16 then [hex_digit a] else hex_digits n' (a / 16) ++ [hex_digit (a mod 16)]
  end.
(** [std::setw(w) << std::setfill('0')]: padding on the left, never truncation
    (utils.cpp:228, 235). *)
Definition pad_left (w : nat) (s : bytes) : bytes := replicate (w - length s) 48 ++ s.
(** hex_string(uint64_t), utils.cpp:225-230. *)
Definition hex_string64 (a : N) : bytes := pad_left 16 (hex_digits 16 a).
(** hex_string(uint32_t), utils.cpp:232-237. *)
Definition hex_string32 (a : N) : bytes := pad_left 8 (hex_digits 8 a).

(** JanusClient::meta_keyword, janus_client.cpp:75-79. *)
Definition meta_keyword (kw : bytes) (search_counter : N) : bytes :=
  hex_string32 search_counter ++ kw.
(** keyword_doc_string, janus_client.cpp:14-17; "||" is 124 124. *)
Definition keyword_doc_string (kw : bytes) (ind : N) : bytes :=
  hex_string64 ind ++ [124; 124] ++ kw.

(** ** concat_iterator *)
Section concat.
  Context {A : Type}.
  (** A contiguous container: address of its first element (in elements) and its
      content (the containers of concat_iterator.hpp:68-69). *)
  Record cont := Cont { c_base : nat; c_elems : list A }.
  (** begin(), concat_iterator.hpp:24, 53. *)
  Definition c_begin (c : cont) : nat := c_base c.
  (** end(), concat_iterator.hpp:23. *)
  Definition c_end (c : cont) : nat := c_base c + length (c_elems c).
  (** The fields of concat_iterator, concat_iterator.hpp:68-72; the two containers are
      parameters. *)
  Record citer := CIter { ci_it : nat; ci_second : bool }.
  (** First constructor, concat_iterator.hpp:52-56. *)
  Definition concat_begin (c1 c2 : cont) : citer := CIter (c_begin c1) false.
  (** Constructor of the end, concat_iterator.hpp:58-65. *)
  Definition concat_end (c1 c2 : cont) : citer := CIter (c_end c2) true.
  (** operator*, concat_iterator.hpp:47-50: reading outside of the container the
      iterator comes from is undefined. *)
  Definition concat_deref (c1 c2 : cont) (i : citer) : res A :=
    let c := if ci_second i then c2 else c1 in
    if bool_decide (c_begin c <= ci_it i)%nat then vat (c_elems c) (ci_it i - c_base c) else UB.
  (** operator++, concat_iterator.hpp:20-28: going past the end is undefined. *)
  Definition concat_incr (c1 c2 : cont) (i : citer) : res citer :=
    let c := if ci_second i then c2 else c1 in
    if bool_decide (ci_it i = c_end c) then UB
    else
      let it := S (ci_it i) in
      if negb (ci_second i) && bool_decide (it = c_end c1)
      then Ok (CIter (c_begin c2) true)
      else Ok (CIter it (ci_second i)).
  (** operator==, concat_iterator.hpp:39-42: only the positions are compared. *)
  Definition concat_eq (i j : citer) : bool := bool_decide (ci_it i = ci_it j).
  (** [for (it = begin; it != end; ++it)], collecting the elements (the use
      intended by concat_iterator.hpp:20-50). *)
  Fixpoint concat_loop (fuel : nat) (c1 c2 : cont) (i : citer) : res (list A) :=
    match fuel with
    | O => OutOfFuel
    | S fuel' =>
        if concat_eq i (concat_end c1 c2) then Ok []
        else
          x <~ concat_deref c1 c2 i ;
          j <~ concat_incr c1 c2 i ;
          l <~ concat_loop fuel' c1 c2 j ;
          Ok (x :: l)
    end.
End concat.
Arguments cont : clear implicits.
