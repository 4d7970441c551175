(** Executions and the phase discipline. *)
From Coq Require Import ZArith Bool List Arith.
From Verif Require Import Outcome PoolModel PoolConcModel.
Import ListNotations.
Open Scope Z_scope.

Definition allocating (c : pc) : Prop := match c with ALoad | ARead _ | ACas _ _ => True | _ => False end.
Definition deallocating (c : pc) : Prop := match c with DXchg _ | DLink _ _ => True | _ => False end.

(** A call may start only if no call of the other kind is in progress. *)
Definition phase_ok (l : label) (s : cstate) : Prop :=
  match l with
  | LStartAlloc _ => forall t, ~ deallocating (pcs s t)
  | LStartFree _ _ => forall t, ~ allocating (pcs s t)
  | _ => True
  end.

(** States reachable by any schedule. *)
Inductive reachable (n : nat) : cstate -> Prop :=
  | reach_init : reachable n (cinit n)
  | reach_step : forall s l s', reachable n s -> cstep l s = Step s' -> reachable n s'.

(** Executions that keep the phase discipline, from one state to another. *)
Inductive phased_run : cstate -> list label -> cstate -> Prop :=
  | phased_nil : forall s, phased_run s [] s
  | phased_cons : forall s l s1 ls s2,
      phase_ok l s -> cstep l s = Step s1 -> phased_run s1 ls s2 -> phased_run s (l :: ls) s2.

Definition phased_reachable (n : nat) (s : cstate) : Prop := exists ls, phased_run (cinit n) ls s.

(** The blocks held by anyone. *)
Definition held (s : cstate) : list nat := map snd (holders s).

(** No call in progress. *)
Definition quiescent (s : cstate) : Prop := forall t, pcs s t = Idle.

(** The next step of thread [t] if it is inside allocate, without spurious failures, and [k] such steps. *)
Definition own_step (s : cstate) (t : nat) : effect :=
  match pcs s t with
  | ALoad => cstep (LLoad t) s
  | ARead _ => cstep (LRead t) s
  | ACas _ _ => cstep (LCas t false) s
  | _ => Disabled
  end.

Fixpoint solo (k : nat) (s : cstate) (t : nat) : effect :=
  match k with
  | O => Step s
  | S k' => match own_step s t with Step s' => solo k' s' t | e => e end
  end.
