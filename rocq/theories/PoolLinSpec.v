(** What it means that calls from several threads behave as calls made one after the other (linearizability), for C142. The calls and
    their results are those a client sees; the pool is a stack of blocks. *)
From Coq Require Import ZArith Bool List Arith.
From Verif Require Import Outcome PoolModel PoolConcModel PoolConcSpec PoolUseSpec.
Import ListNotations.

(** The calls and what they answer: a block, null, or nothing. *)
Inductive call : Type := Allocate | Deallocate (b : nat).
Inductive answer : Type := Got (b : nat) | GotNull | Done.

(** What happens, in the order of time. A point is the moment at which a call takes effect. *)
Inductive action : Type :=
  | Call (t : nat) (c : call)
  | Point (t : nat) (c : call) (a : answer)
  | Return (t : nat) (a : answer).
Definition is_point (x : action) : bool := match x with Point _ _ _ => true | _ => false end.

(** The pool seen as a stack. *)
Definition stack_step (c : call) (a : answer) (st : list nat) : option (list nat) :=
  match c, a, st with
  | Allocate, Got b, top :: rest => if (b =? top)%nat then Some rest else None
  | Allocate, GotNull, [] => Some []
  | Deallocate b, Done, _ => Some (b :: st)
  | _, _, _ => None
  end.
(** The stack after the calls have taken effect in the order of their points; none if one of them has an answer that a stack does not
    give. *)
Fixpoint replay (st : list nat) (h : list action) : option (list nat) :=
  match h with
  | [] => Some st
  | Point _ c a :: rest => match stack_step c a st with Some st' => replay st' rest | None => None end
  | _ :: rest => replay st rest
  end.

(** Where thread [t] is: outside, in a call that has not taken effect, in a call that has. *)
Inductive stage : Type := Outside | Pending (c : call) | Effective (a : answer).
Definition call_eqb (c d : call) : bool :=
  match c, d with Allocate, Allocate => true | Deallocate b, Deallocate b' => (b =? b')%nat | _, _ => false end.
Definition answer_eqb (a b : answer) : bool :=
  match a, b with Got x, Got y => (x =? y)%nat | GotNull, GotNull => true | Done, Done => true | _, _ => false end.
(** Every call of [t] takes effect once, between its start and its return, with the answer that it returns. *)
Fixpoint track (t : nat) (g : stage) (h : list action) : option stage :=
  match h with
  | [] => Some g
  | Call t' c :: rest =>
      if (t' =? t)%nat then match g with Outside => track t (Pending c) rest | _ => None end else track t g rest
  | Point t' c a :: rest =>
      if (t' =? t)%nat
      then match g with Pending c' => if call_eqb c c' then track t (Effective a) rest else None | _ => None end
      else track t g rest
  | Return t' a :: rest =>
      if (t' =? t)%nat
      then match g with Effective a' => if answer_eqb a a' then track t Outside rest else None | _ => None end
      else track t g rest
  end.

(** A history of calls and returns is linearizable if points can be put in such that the calls behave like those of one stack of the
    blocks 0, 1, ..., n-1. *)
Definition linearizable (n : nat) (h : list action) : Prop :=
  exists h', List.filter (fun x => negb (is_point x)) h' = h /\
    (forall t, track t Outside h' <> None) /\ replay (seq 0 n) h' <> None.

(** What a client sees of a step: a call when a thread enters the pool's functions, a return with its answer when it leaves them. *)
Definition sees (e : event) (s s' : cstate) : list action :=
  match e with
  | Give _ _ _ => []
  | Do l =>
      let t := thread_of l in
      match pcs s t, pcs s' t with
      | Idle, Idle => []
      | Idle, _ => [Call t (match l with LStartFree _ b => Deallocate b | _ => Allocate end)]
      | DXchg _, Idle | DLink _ _, Idle => [Return t Done]
      | _, Idle => [Return t (if (length (holders s) <? length (holders s'))%nat
                              then match holders s' with (_, b) :: _ => Got b | [] => GotNull end else GotNull)]
      | _, _ => []
      end
  end.
Fixpoint history_of (es : list event) (s : cstate) : list action :=
  match es with
  | [] => []
  | e :: rest => match happens e s with Step s' => sees e s s' ++ history_of rest s' | _ => [] end
  end.

(** Calls made one after the other, with their answers. *)
Fixpoint stack_run (st : list nat) (cs : list (call * answer)) : option (list nat) :=
  match cs with
  | [] => Some st
  | (c, a) :: rest => match stack_step c a st with Some st' => stack_run st' rest | None => None end
  end.
