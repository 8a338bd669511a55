(** What a program made of threads and thread pools must deliver. *)
From stdpp Require Import prelude.
From Verif Require Import Base PoolModel.

Section spec.
  Context {T R : Type} (code : T -> list (act T R)).

  (** Everything that a body delivers, with all the tasks it creates, when [d] pools
      follow the one it runs in. *)
  Fixpoint delivers (d : nat) (acts : list (act T R)) : list R :=
    acts ≫= fun a => match a with
      | AEmit r => [r]
      | AEnq t => match d with 0 => [] | S d' => delivers d' (code t) end
      end.

  (** A body only enqueues tasks on pools that exist. *)
  Fixpoint fits (d : nat) (acts : list (act T R)) : Prop :=
    Forall (fun a => match a with
      | AEmit _ => True
      | AEnq t => match d with 0 => False | S d' => fits d' (code t) end
      end) acts.

  (** Start: plain threads run [bodies]; the pools have [sizes] workers; the main thread
      joins in the order [order]. *)
  Definition start (bodies : list (list (act T R))) (sizes : list nat) (order : list nat) : sys T R :=
    Sys (threads bodies :: (new_pool <$> sizes)) (MJoin order) [] [].

  (** Executions. *)
  Definition reaches : sys T R -> sys T R -> Prop := rtc (any_step code).
End spec.
