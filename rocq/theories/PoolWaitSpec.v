(** What disturbs a call of allocate, for C167. *)
From Coq Require Import Bool List Arith.
From Verif Require Import PoolConcModel PoolProgressSpec.
Open Scope nat_scope.

(** Another thread takes a block. *)
Definition taken_by_other (t : nat) (l : label) (s : cstate) : bool := takes l s && negb (allocate_step t l s).
(** How often the call of thread [t] was disturbed: another thread took a block, a block was put back, or the machine failed a compare-exchange for no reason. *)
Definition disturbances (t : nat) (ls : list label) (s : cstate) : nat :=
  count_steps (taken_by_other t) ls s + count_steps puts ls s + count_steps (fails_spuriously t) ls s.
(** How many steps the thread made in allocate. *)
Definition own_steps (t : nat) (ls : list label) (s : cstate) : nat := count_steps (allocate_step t) ls s.
