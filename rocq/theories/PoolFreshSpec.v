(** Stale exchanges, for C147: the one thing that concurrent use of the pool must not let happen. *)
From Coq Require Import ZArith Bool List Arith.
From Verif Require Import Outcome PoolModel PoolConcModel PoolConcSpec PoolUseSpec.
Import ListNotations.

(** Thread [t] is about to take block [b] from the list and to leave [q] as its head, and will succeed. *)
Definition takes (s : cstate) (t b : nat) (q : ptr) : Prop := pcs s t = ACas (At b) q /\ chead s = At b.
(** That is in order if the deallocate that brought [b] back has linked it, and [q] is the link that is in it now. *)
Definition up_to_date (s : cstate) (b : nat) (q : ptr) : Prop :=
  (forall t, ~ unlinked (pcs s t) b) /\ exists c, nth_error (cmem s) b = Some c /\ as_ptr c = q.
(** Otherwise the exchange is stale. *)
Definition stale (s : cstate) (t : nat) : Prop := exists b q, takes s t b q /\ ~ up_to_date s b q.

(** Executions without stale exchanges. Every call may overlap with every other. *)
Definition fresh_rule : rule := fun l s =>
  match l with LCas t false => forall b q, takes s t b q -> up_to_date s b q | _ => True end.

(** What a user of a pool of [n] blocks must never see. *)
Inductive harm (n : nat) (s : cstate) : Prop :=
  (** a block has two holders *)
  | harm_shared : ~ NoDup (held s) -> harm n s
  (** an allocate follows a pointer that is not a block *)
  | harm_pointer : forall t, cstep (LRead t) s = Crash -> harm n s
  (** a deallocate is about to overwrite what the holder of a block wrote to it *)
  | harm_data : forall t u b q v, pcs s t = DLink b q -> holds s u b = true -> nth_error (cmem s) b = Some (CData v) -> harm n s
  (** an allocate is about to answer null although some block is neither held nor being returned *)
  | harm_lost : forall t b, pcs s t = ALoad -> chead s = Null -> (b < n)%nat -> ~ In b (held s) ->
      (forall u q, pcs s u <> DXchg b /\ pcs s u <> DLink b q) -> harm n s.
