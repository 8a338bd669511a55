(** Model of the sizes and alignments of the asynchronous accesses of awonvm_vector
    (lib/include/sse/schemes/abstractio/awonvm_vector.hpp) with the scheduler of
    AioLinuxModel.v: page sizes, buffers, arguments.

    Simplifications.
    - The vector has a scheduler, is in the right state and the index is in bounds (VecModel.v,
      AioBufModel.v).
    - The scheduler runs, and the kernel takes all the requests it is given (AioLinuxModel.v). *)
From stdpp Require Import prelude.
From Coq Require Import ZArith NArith Lia.
From Verif Require Import Base AioLinuxModel.
Local Open Scope N_scope.

(** device_page_size, lib/utils/utils.cpp:252-263: the field f_bsize ([None]: fstatvfs fails,
    which is not tested; an uninitialised variable is read). *)
Definition device_page_size (bsize : option N) : res N := match bsize with Some b => Ok b | None => UB end.
(** async_io_page_size, lib/abstractio/scheduler.cpp:9-12; [os] is the result of os_page_size,
    utils.cpp:247-250. *)
Definition async_io_page_size (os : N) (bsize : option N) : res N :=
  d <~ device_page_size bsize; Ok (N.max os d).
(** Whether a constructor warns, awonvm_vector.hpp:117-129, 151-163. *)
Definition ctor_warns (sz page : N) : bool :=
  if page =? 0 then true else negb (sz mod page =? 0).

(** posix_memalign (called in awonvm_vector.hpp:258, 386, 449) on a machine where pointers have 8
    bytes: EINVAL unless the alignment is a power of two and a multiple of 8; [heap] is the
    address found by the allocator, if there is one. *)
Definition memalign (al : N) (heap : option N) : option N :=
  if (al =? 0) || negb (al mod 8 =? 0) || negb (N.land (al / 8) (al / 8 - 1) =? 0) then None else heap.
(** The conversion of index * sizeof(T), a size_t, to off_t (awonvm_vector.hpp:277, 407, 470). *)
Definition to_off (x : N) : Z :=
  let w := x mod 2 ^ 64 in
  if w <? 2 ^ 63 then Z.of_N w else (Z.of_N w - 2 ^ 64)%Z.
(** A request of async_push_back, async_get or async_gets on the index [idx],
    awonvm_vector.hpp:255-286, 384-415, 448-483: the request that is submitted, or an exception. *)
Definition async_request (al sz page idx : N) (heap : option N) : res lreq :=
  match memalign al heap with
  | None => Throw RuntimeError
  | Some buf =>
      let r := LReq idx buf sz (to_off (idx * sz)) in
      if (check_args page r =? 0)%Z then Ok r else Throw RuntimeError
  end.
