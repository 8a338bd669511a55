(** Model of the page and stash encoders of Tethys, at the level of bytes.
    Sources: lib/include/sse/schemes/tethys/encoders/encode_separate.hpp,
    lib/include/sse/schemes/tethys/encoders/encode_encrypt.hpp,
    lib/include/sse/schemes/tethys/core_types.hpp and
    lib/include/sse/schemes/abstractio/kv_serializer.hpp. *)
From stdpp Require Import prelude gmap.
From Coq Require Import ZArith NArith Lia.
From Verif Require Import Base GraphModel.
Local Open Scope nat_scope.

(** A byte is a natural number; a C++ object of type [Key] or [T] is the string
    of the bytes that represent it in memory (std::array<uint8_t, N> in
    types.hpp:14). *)
Notation bytes := (list N).

(** Template parameters: sizeof(Key), sizeof(T) and PAGESIZE,
    encode_separate.hpp:19-20. *)
Record eparams := EPar { kp_key : nat; kp_val : nat; kp_page : nat }.

(** encode_separate.hpp:29-30 *)
Definition key_entries (p : eparams) : nat :=
  kp_key p / kp_val p + (if decide (kp_key p mod kp_val p = 0) then 0 else 1).
(** encode_separate.hpp:32-35; sizeof(TethysAssignmentInfo::list_length) is 8. *)
Definition len_entries (p : eparams) : nat :=
  8 / kp_val p + (if decide (8 mod kp_val p = 0) then 0 else 1).
(** [kAdditionalKeyEntriesPerList + kListLengthEntriesNumber],
    encode_separate.hpp:57. *)
Definition ctl_half (p : eparams) : nat := key_entries p + len_entries p.
(** kListControlValues, encode_separate.hpp:37-38 *)
Definition list_control (p : eparams) : nat := 2 * ctl_half p.

(** Memory of a little-endian integer on [k] bytes (the reinterpret_cast of
    encode_separate.hpp:100-102; the code assumes a little-endian host nowhere
    else than by reading with memcpy what it wrote with std::copy). *)
Fixpoint le_bytes (k : nat) (n : N) : bytes :=
  match k with
  | 0 => []
  | S k' => N.modulo n 256 :: le_bytes k' (N.div n 256)
  end.
(** Reading it back: the memcpy of encode_separate.hpp:287. *)
Fixpoint le_val (b : bytes) : N :=
  match b with
  | [] => 0%N
  | x :: b' => (x + 256 * le_val b')%N
  end.
(** A uint64_t in memory, encode_separate.hpp:100-102 and 224. *)
Definition le64 (n : N) : bytes := le_bytes 8 n.

(** Subtraction of unsigned 64-bit integers, e.g. encode_separate.hpp:67. *)
Definition sub64 (a b : Z) : Z := ((a - b) mod 2 ^ 64)%Z.

(** Copying bytes into a buffer (std::copy, encode_separate.hpp:100-103);
    writing outside of the buffer is undefined. *)
Definition wr (buf : bytes) (off : nat) (bs : bytes) : res bytes :=
  if bool_decide (off + length bs <= length buf) then
    Ok (take off buf ++ bs ++ drop (off + length bs) buf)
  else UB.
(** std::fill, encode_separate.hpp:108-110: an inverted range is undefined. *)
Definition fill (buf : bytes) (from to : nat) (b : N) : res bytes :=
  if bool_decide (to < from) then UB else wr buf from (replicate (to - from) b).
(** memcpy out of a buffer, encode_separate.hpp:287; reading outside of the
    buffer is undefined. *)
Definition rd (buf : bytes) (off n : N) : res bytes :=
  if bool_decide (off + n <= N.of_nat (length buf))%N then
    Ok (take (N.to_nat n) (drop (N.to_nat off) buf))
  else UB.

(** core_types.hpp:9-13 *)
Inductive orientation := Incoming | Outgoing.
(** core_types.hpp:15-20 *)
Record ainfo := AInfo { ai_len : Z; ai_mine : Z; ai_dual : Z; ai_dir : orientation }.
(** Constructor, core_types.hpp:22-33. *)
Definition ainfo_of (e : edge) (o : orientation) : ainfo :=
  match o with
  | Outgoing => AInfo (e_cap e) (e_flow e) (e_recf e) o
  | Incoming => AInfo (e_cap e) (e_recf e) (e_flow e) o
  end.

(** Iterators of encode_separate.hpp:81-94: the first or the last [n] values;
    moving an iterator outside of the vector is undefined. *)
Definition sublist_of (values : list bytes) (o : orientation) (n : Z) : res (list bytes) :=
  if bool_decide (n <= Z.of_nat (length values))%Z then
    match o with
    | Incoming => Ok (take (Z.to_nat n) values)
    | Outgoing => Ok (drop (length values - Z.to_nat n) values)
    end
  else UB.

(** The loop of encode_separate.hpp:130-137; returns the buffer and the offset. *)
Fixpoint write_values (sz : nat) (buf : bytes) (base off : nat) (vs : list bytes)
  : res (bytes * nat) :=
  match vs with
  | [] => Ok (buf, off)
  | v :: vs' =>
      buf' <~ wr buf (base + off) v;
      write_values sz buf' base (off + sz) vs'
  end.

(** encode_separate.hpp:49-152.  [base] is the position of the [buffer] pointer
    in the page [buf]; returns the page and the offset that encode() returns. *)
Definition encode (p : eparams) (buf : bytes) (base : nat) (key : bytes)
  (values : list bytes) (ai : ainfo) : res (bytes * nat) :=
  if bool_decide (ai_mine ai <= Z.of_nat (ctl_half p))%Z then Ok (buf, 0)
  else
    let original := sub64 (ai_len ai) (Z.of_nat (list_control p)) in
    let enc := Z.min (sub64 (ai_mine ai) (Z.of_nat (ctl_half p))) original in
    sub <~ sublist_of values (ai_dir ai) enc;
    b1 <~ wr buf base (le64 (Z.to_N enc));
    s2 <~ (if bool_decide (8 < len_entries p * kp_val p) then
             b <~ fill b1 (base + 8) (base + key_entries p * kp_val p) 17;
             Ok (b, len_entries p * kp_val p)
           else Ok (b1, 8));
    b3 <~ wr s2.1 (base + s2.2) key;
    let off3 := s2.2 + kp_key p in
    s4 <~ (if bool_decide (off3 < ctl_half p * kp_val p) then
             b <~ fill b3 (base + off3) (base + list_control p * kp_val p) 34;
             Ok (b, ctl_half p * kp_val p)
           else Ok (b3, off3));
    write_values (kp_val p) s4.1 base s4.2 sub.

(** encode_separate.hpp:154-167 *)
Definition finish_block (buf : bytes) (written remaining : nat) : res (bytes * nat) :=
  if bool_decide (remaining = 0) then Ok (buf, 0)
  else b <~ wr buf written (replicate remaining 0%N); Ok (b, remaining).

(** [n] consecutive objects of [sz] bytes: the reads of encode_separate.hpp:303-309. *)
Fixpoint chunks (sz n : nat) (b : bytes) : list bytes :=
  match n with
  | 0 => []
  | S n' => take sz b :: chunks sz n' (drop sz b)
  end.

(** encode_separate.hpp:276-316, the values appended to [results].  Offsets are
    64-bit.  Simplified: the reserve() of line 301, which throws on an absurd
    length, is not modelled (such a length makes the reads undefined below). *)
Fixpoint decode_loop (fuel : nat) (p : eparams) (key bucket : bytes) (off : N)
  : res (list bytes) :=
  if bool_decide (off < N.of_nat (length bucket))%N then
    match fuel with
    | 0 => OutOfFuel
    | S fuel' =>
        lb <~ rd bucket off 8;
        let n := le_val lb in
        let off1 := (off + 8)%N in
        if bool_decide (n = 0%N) then Ok []
        else
          k <~ rd bucket off1 (N.of_nat (kp_key p));
          let off2 := (off1 + N.of_nat (kp_key p))%N in
          if bool_decide (k = key) then
            vb <~ rd bucket off2 (n * N.of_nat (kp_val p));
            Ok (chunks (kp_val p) (N.to_nat n) vb)
          else decode_loop fuel' p key bucket
                 ((off2 + n * N.of_nat (kp_val p)) mod 2 ^ 64)%N
    end
  else Ok [].
(** The function itself: the loop from offset 0, encode_separate.hpp:276-316. *)
Definition decode_single (p : eparams) (key bucket : bytes) : res (list bytes) :=
  decode_loop (S (length bucket)) p key bucket 0.

(** encode_separate.hpp:318-329 *)
Definition decode_buckets (p : eparams) (key b0 b1 : bytes) : res (list bytes) :=
  r0 <~ decode_single p key b0;
  r1 <~ decode_single p key b1;
  Ok (r0 ++ r1).

(** encode_separate.hpp:171-239: the bytes appended to the stream. *)
Definition serialize_key_value (p : eparams) (key : bytes) (values : list bytes) (ai : ainfo)
  : res bytes :=
  let A := Z.of_nat (ctl_half p) in
  let original := sub64 (ai_len ai) (Z.of_nat (list_control p)) in
  let e1 := Z.min (if bool_decide (ai_mine ai <= A)%Z then 0%Z else sub64 (ai_mine ai) A)
                  original in
  let e2 := Z.min (if bool_decide (ai_dual ai <= A)%Z then 0%Z else sub64 (ai_dual ai) A)
                  original in
  let v_size := sub64 (sub64 original e1) e2 in
  if bool_decide (v_size = 0%Z) then Ok []
  else
    let hi := sub64 (Z.of_nat (length values)) e2 in
    vs <~ (if bool_decide (hi <= e1)%Z then Ok []
           else if bool_decide (hi <= Z.of_nat (length values))%Z then
             Ok (take (Z.to_nat hi - Z.to_nat e1) (drop (Z.to_nat e1) values))
           else UB);
    Ok (key ++ le64 (Z.to_N v_size) ++ mjoin vs).

(** encode_separate.hpp:331-352: the pair and the rest of the stream.  A short
    read of the size leaves the missing bytes at zero; a short read of the key
    or of a value leaves an uninitialised object, which is undefined here.
    Simplified: the reserve() of line 343 is not modelled. *)
Definition deserialize_key_value (p : eparams) (s : bytes) : res ((bytes * list bytes) * bytes) :=
  if bool_decide (length s < kp_key p) then UB
  else
    let k := take (kp_key p) s in
    let s1 := drop (kp_key p) s in
    let n := le_val (take 8 s1) in
    let s2 := drop 8 s1 in
    if bool_decide (n * N.of_nat (kp_val p) <= N.of_nat (length s2))%N then
      Ok ((k, chunks (kp_val p) (N.to_nat n) s2), drop (N.to_nat n * kp_val p) s2)
    else UB.

(** kv_serializer.hpp:76-85, the calls made to the callback. *)
Fixpoint deserialize_loop (fuel : nat) (p : eparams) (s : bytes)
  : res (list (bytes * list bytes)) :=
  match s with
  | [] => Ok []
  | _ =>
      match fuel with
      | 0 => OutOfFuel
      | S fuel' =>
          r <~ deserialize_key_value p s;
          kvs <~ deserialize_loop fuel' p r.2;
          Ok (r.1 :: kvs)
      end
  end.
(** kv_serializer.hpp:94-106: the callback assigns [result[k] = v] in order. *)
Definition deserialize_map (p : eparams) (s : bytes) : res (gmap bytes (list bytes)) :=
  kvs <~ deserialize_loop (S (length s)) p s;
  Ok (foldl (fun m kv => <[kv.1 := kv.2]> m) ∅ kvs).

(** * Encryption of pages *)

(** The keystream crypto_stream_chacha20(out, len, nonce, key) of libsodium is a
    parameter [ks key nonce len]; encode_encrypt.hpp:80 and 168. *)
Notation keystream := (bytes -> bytes -> nat -> bytes).

(** The xor of encode_encrypt.hpp:80-81 and 178-186. *)
Definition xor_bytes (a b : bytes) : bytes := zip_with N.lxor a b.

(** encode_encrypt.hpp:76-78 and 165-166: the nonce is the memory of the table
    index (crypto_stream_chacha20_NONCEBYTES and sizeof(size_t) are both 8). *)
Definition nonce_of (index : nat) : bytes := le64 (N.of_nat index).

(** EncryptEncoder::finish_block_encoding, encode_encrypt.hpp:61-91. *)
Definition enc_finish_block (ks : keystream) (ekey : bytes) (p : eparams)
  (buf : bytes) (index written remaining : nat) : res (bytes * nat) :=
  r <~ finish_block buf written remaining;
  Ok (xor_bytes (ks ekey (nonce_of index) (kp_page p)) r.1, kp_page p - written).

(** DecryptDecoder::decode_buckets, encode_encrypt.hpp:145-195. *)
Definition dec_decode_buckets (ks : keystream) (dkey : bytes) (p : eparams)
  (key b0 : bytes) (i0 : nat) (b1 : bytes) (i1 : nat) : res (list bytes) :=
  decode_buckets p key
    (xor_bytes (ks dkey (nonce_of i0) (kp_page p)) b0)
    (xor_bytes (ks dkey (nonce_of i1) (kp_page p)) b1).
