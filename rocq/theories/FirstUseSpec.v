(** Vocabulary for C118. *)
From Coq Require Import ZArith Bool List Arith.
From Verif Require Import Outcome PoolModel PoolConcModel PoolConcSpec PoolUseSpec FirstUseModel.
Import ListNotations.

(** The thread is inside the constructor. *)
Definition building (p : place) : Prop := match p with Outside | Has => False | _ => True end.

(** Executions in which the pool is used by rule [ok]; with [alone], no call of getReference begins while the construction is under
    way, as the documentation demands (memory.hpp lines 26-29). *)
Inductive first_use (safe alone : bool) (ok : rule) (n : nat) : fstate -> Prop :=
  | first_init : forall m h, length m = n -> first_use safe alone ok n (finit m h)
  | first_step : forall s l s', first_use safe alone ok n s ->
      match l with
      | FUse e => allowed ok e (pool_of s)
      | FEnter _ => alone = true -> forall t, ~ building (places s t)
      | FBuild _ => True
      end ->
      fstep safe n l s = FStep s' -> first_use safe alone ok n s'.
