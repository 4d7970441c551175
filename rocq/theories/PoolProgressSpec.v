(** Counting the steps of concurrent executions of the memory pool. *)
From Coq Require Import ZArith Bool List Arith.
From Verif Require Import Outcome PoolModel PoolConcModel.
Import ListNotations.
Open Scope nat_scope.

(** How many of the steps of an execution that begins in [s] satisfy [p]. *)
Fixpoint count_steps (p : label -> cstate -> bool) (ls : list label) (s : cstate) : nat :=
  match ls with
  | [] => 0
  | l :: rest => (if p l s then 1 else 0) + match cstep l s with Step s' => count_steps p rest s' | _ => 0 end
  end.

(** A step of thread [t] inside allocate; inside deallocate. *)
Definition allocate_step (t : nat) (l : label) (_ : cstate) : bool :=
  match l with LLoad u | LRead u | LCas u _ => u =? t | _ => false end.
Definition deallocate_step (t : nat) (l : label) (_ : cstate) : bool :=
  match l with LXchg u | LLink u => u =? t | _ => false end.

(** A thread takes a block out of the pool: the number of blocks taken grows. A thread puts a block back. *)
Definition takes (l : label) (s : cstate) : bool :=
  match cstep l s with Step s' => pops s <? pops s' | _ => false end.
Definition puts (l : label) (_ : cstate) : bool := match l with LXchg _ => true | _ => false end.

(** Thread [t] finds the pool empty; its compare-exchange fails for no reason; it calls deallocate. *)
Definition finds_empty (t : nat) (l : label) (s : cstate) : bool :=
  match l with LLoad u => (u =? t) && ptr_eqb (chead s) Null | _ => false end.
Definition fails_spuriously (t : nat) (l : label) (_ : cstate) : bool :=
  match l with LCas u true => u =? t | _ => false end.
Definition calls_deallocate (t : nat) (l : label) (_ : cstate) : bool :=
  match l with LStartFree u _ => u =? t | _ => false end.
(** It calls allocate; it takes a block. *)
Definition calls_allocate (t : nat) (l : label) (_ : cstate) : bool :=
  match l with LStartAlloc u => u =? t | _ => false end.
Definition takes_one (t : nat) (l : label) (s : cstate) : bool := allocate_step t l s && takes l s.
(** Thread [t] is inside allocate. *)
Definition allocating (t : nat) (s : cstate) : bool :=
  match pcs s t with ALoad | ARead _ | ACas _ _ => true | _ => false end.

(** The same for some thread of [ts]. *)
Definition by_any (ts : list nat) (p : nat -> label -> cstate -> bool) (l : label) (s : cstate) : bool := existsb (fun t => p t l s) ts.
