(** Concurrent requests and setups: what must hold. *)
From stdpp Require Import prelude relations.
From Verif Require Import Base EncModel RunnerModel SetupModel.

(** Executions from disk [f], memory [p] and calls [cs]. *)
Definition srv_init (f : fs) (p : proc) (cs : list call) : srv := Srv f p false (start <$> cs).
Definition one_step (v : service) (s s' : srv) : Prop := exists i, sstep v s i = Some (Ok s').
Definition srv_reach (v : service) (f : fs) (p : proc) (cs : list call) : srv -> Prop := rtc (one_step v) (srv_init f p cs).
(** A thread is about to use a null pointer. *)
Definition null_use (v : service) (s : srv) : Prop := exists i, sstep v s i = Some UB.
(** Two threads are about to use the same pointer, and one of them changes it. *)
Definition data_race (s : srv) : Prop :=
  exists i j x w w', i <> j /\ access s i = Some (x, w) /\ access s j = Some (x, w') /\ (w || w') = true.

(** Disk and memory after the first [k] effects of a setup that runs alone. *)
Definition alone (setup : fs -> proc -> env -> bytes -> list effect * status) (f : fs) (p : proc) (e : env) (key : bytes) (k : nat)
    : fs * proc :=
  let l := take k (setup f p e key).1 in (foldl on_disk f l, foldl in_memory p l).
(** Every call has returned. *)
Definition all_returned (s : srv) : Prop :=
  forall i q, v_pcs s !! i = Some q -> (exists st, q = PSetupEnd st) \/ (exists st, q = PEnd st).
(** The two services and their setups. *)
Inductive is_service : service -> (fs -> proc -> env -> bytes -> list effect * status) -> Prop :=
| is_diana : is_service diana_service d_setup
| is_sophos valid : is_service (sophos_service valid) (so_setup valid).
