(** Model of the key files of the clients, byte by byte.
    Sources: lib/sophos/sophos_client_runner.cpp:57-229,
    lib/diana/client_runner.cpp:55-247, lib/sophos/sophos_client.cpp:42-50. *)
From stdpp Require Import prelude.
From Coq Require Import NArith Lia.
From Verif Require Import Base EncModel.

(** The directory of a client: the contents of its three key files, in the order in
    which they are written (Sophos: tdp_sk.key, derivation_master.key, rsa_prg.key,
    sophos_client_runner.cpp:49-53; Diana: master_derivation.key, kw_token_master.key,
    wrapping.key, client_runner.cpp:45-47), [None] if there is no such regular file; and
    whether counters.dat is a directory. *)
Record kdir := KDir { kd_files : list (option bytes); kd_counters : bool }.
(** What is at the path given to the constructor (utils.cpp:38-57): nothing, something
    else than a directory, a directory. *)
Inductive kfs := KNone | KOther | KAt (d : kdir).

(** Effects of the creation of a client on the disk: create_directory; an ofstream is
    opened (the file is created, or truncated); one byte of a key reaches the file;
    RocksDB creates counters.dat (sophos_client_runner.cpp:213-217, 81-111,
    client_runner.cpp:228-233, 175-207). *)
Inductive keffect := KMkdir | KOpen (i : nat) | KByte (i : nat) (b : N) | KCounters.

(** An effect on the disk (same lines as [keffect]). *)
Definition k_apply (f : kfs) (e : keffect) : kfs :=
  match e, f with
  | KMkdir, KNone => KAt (KDir [None; None; None] false)
  | KOpen i, KAt d => KAt (KDir (<[i := Some []]> (kd_files d)) (kd_counters d))
  | KByte i b, KAt d =>
      KAt (KDir (alter (fmap (fun k => k ++ [b])) i (kd_files d)) (kd_counters d))
  | KCounters, KAt d => KAt (KDir (kd_files d) true)
  | _, _ => f
  end.

(** How the system calls behave when a client is created: mkdir; whether the i-th
    ofstream opens; how many bytes of the i-th key reach its file (the state of the
    stream is not checked after << and close()); whether RocksDB creates counters.dat,
    and opens it; whether the server accepts the setup (sophos_client_runner.cpp:81-117,
    213-228, client_runner.cpp:175-207, 228-245). *)
Record kenv := KEnv {
  ke_mkdir : bool; ke_open : nat -> bool; ke_written : nat -> nat;
  ke_creates : bool; ke_core : bool; ke_setup : bool }.
(** How reading behaves: how many bytes of the i-th file are read before an error of the
    device (the state of the stream is not checked), and whether RocksDB opens
    counters.dat (sophos_client_runner.cpp:155-163, 185-191, client_runner.cpp:92-103,
    143-146). *)
Record krenv := KREnv { kr_read : nat -> nat; kr_core : bool }.

(** The key files are written one after the other: sophos_client_runner.cpp:81-108,
    client_runner.cpp:175-202.  The effects, and whether all the files could be opened. *)
Fixpoint k_write_files (e : kenv) (i : nat) (keys : list bytes) : list keffect * bool :=
  match keys with
  | [] => ([], true)
  | k :: ks =>
      if ke_open e i then
        let r := k_write_files e (S i) ks in
        (KOpen i :: (KByte i <$> take (ke_written e i) k) ++ r.1, r.2)
      else ([], false)
  end.

(** Content of a file as it is read: [sk_buf << sk_in.rdbuf()] and the like
    (sophos_client_runner.cpp:155-163, client_runner.cpp:92-103). *)
Definition k_read (r : krenv) (i : nat) (content : bytes) : bytes := take (kr_read r i) content.

(** ** Sophos *)
Section sophos.
  (** Constructor of crypto::TdpInverse from a string (library sse_crypto, called at
      sophos_client.cpp:46): it throws or gives the key pair. *)
  Context {K : Type} (load : bytes -> option K).

  (** The keys of a SophosClient (sophos_client.hpp:83-89): TDP key pair, derivation
      master key, key of the PRG. *)
  Record so_keys := SoKeys { sk_tdp : K; sk_master : bytes; sk_prg : bytes }.

  (** Constructor of SophosClient on keys, sophos_client.cpp:42-50; [core] tells whether
      RocksDB opens counters.dat. *)
  Definition so_client (core : bool) (sk master prg : bytes) : res so_keys :=
    match load sk with
    | None => Throw RuntimeError
    | Some t => if core then Ok (SoKeys t master prg) else Throw RuntimeError
    end.

  (** init_client_in_directory, sophos_client_runner.cpp:57-113, on generated keys [sk]
      (the private key in text form), [master] and [prg]; counters.dat is created by the
      last initialiser of sophos_client.cpp:46-47. *)
  Definition so_init (e : kenv) (sk master prg : bytes) : list keffect * res so_keys :=
    let w := k_write_files e 0 [sk; master; prg] in
    if w.2 then
      (w.1 ++ (match load sk with Some _ => if ke_creates e then [KCounters] else [] | None => [] end),
       so_client (ke_creates e && ke_core e) sk master prg)
    else (w.1, Throw RuntimeError).

  (** construct_client_from_directory, sophos_client_runner.cpp:115-193; the sizes of the
      two symmetric keys are checked (lines 168-179), that of the secret key is not. *)
  Definition so_construct (r : krenv) (d : kdir) : res so_keys :=
    match kd_files d with
    | [Some sk; Some master; Some prg] =>
        if negb (kd_counters d) then Throw RuntimeError
        else if negb (bool_decide (length (k_read r 1 master) = 32)) then Throw RuntimeError
        else if negb (bool_decide (length (k_read r 2 prg) = 32)) then Throw RuntimeError
        else so_client (kr_core r) (k_read r 0 sk) (k_read r 1 master) (k_read r 2 prg)
    | _ => Throw RuntimeError
    end.
End sophos.

(** ** Diana *)
(** The keys of a DianaClientRunner (diana_client.hpp:85-86, client_runner.hpp): the
    derivation key, the key of the keyword tokens, the wrapping key. *)
Record d_keys := DKeys { dk_master : bytes; dk_kw : bytes; dk_wrap : bytes }.
(** init_client_in_directory, client_runner.cpp:149-208, and the wrapper made from the
    same array, client_runner.cpp:238-239. *)
Definition d_init (e : kenv) (master kw wrap : bytes) : list keffect * res d_keys :=
  let w := k_write_files e 0 [master; kw; wrap] in
  if w.2 then
    (w.1 ++ (if ke_creates e then [KCounters] else []),
     if ke_creates e && ke_core e then Ok (DKeys master kw wrap) else Throw RuntimeError)
  else (w.1, Throw RuntimeError).
(** construct_client_from_directory, client_runner.cpp:55-147. *)
Definition d_construct (r : krenv) (d : kdir) : res d_keys :=
  match kd_files d with
  | [Some master; Some kw; Some wrap] =>
      if negb (kd_counters d) then Throw RuntimeError
      else if negb (bool_decide (length (k_read r 0 master) = 32)) then Throw RuntimeError
      else if negb (bool_decide (length (k_read r 1 kw) = 32)) then Throw RuntimeError
      else if negb (bool_decide (length (k_read r 2 wrap) = 32)) then Throw RuntimeError
      else if kr_core r then Ok (DKeys (k_read r 0 master) (k_read r 1 kw) (k_read r 2 wrap))
      else Throw RuntimeError
  | _ => Throw RuntimeError
  end.

(** ** Constructors of the runners *)
(** SophosClientRunner, sophos_client_runner.cpp:196-229, and DianaClientRunner,
    client_runner.cpp:211-247: the effects on the disk and the result.  [init] is
    init_client_in_directory on freshly generated keys, [construct] is
    construct_client_from_directory. *)
Definition k_runner {A} (init : kenv -> list keffect * res A) (construct : krenv -> kdir -> res A)
    (e : kenv) (r : krenv) (f : kfs) : list keffect * res A :=
  match f with
  | KAt d => ([], construct r d)
  | KOther => ([], Throw RuntimeError)
  | KNone =>
      if ke_mkdir e then
        let x := init e in
        (KMkdir :: x.1,
         match x.2 with
         | Ok c => if ke_setup e then Ok c else Throw RuntimeError
         | y => y
         end)
      else ([], Throw RuntimeError)
  end.
