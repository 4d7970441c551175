(** What a client of the pool knows from the calls it made and their results, most recent first, without looking at the
    pool. *)
From Coq Require Import ZArith Bool List Arith.
From Verif Require Import Outcome PoolModel.
Import ListNotations.
Open Scope Z_scope.

Definition event : Type := (op * obs)%type.
Definition trace : Type := list event.

(** The blocks handed out and not yet returned. *)
Fixpoint outstanding (tr : trace) : list nat :=
  match tr with
  | [] => []
  | (Alloc _ _, OPtr (At b)) :: t => b :: outstanding t
  | (Free (At b), _) :: t => remove Nat.eq_dec b (outstanding t)
  | _ :: t => outstanding t
  end.

(** What the client last wrote to a block since it was handed out. *)
Fixpoint last_written (tr : trace) (b : nat) : option Z :=
  match tr with
  | [] => None
  | (Write b' v, _) :: t => if (b =? b')%nat then Some v else last_written t b
  | (Alloc _ _, OPtr (At b')) :: t => if (b =? b')%nat then None else last_written t b
  | _ :: t => last_written t b
  end.

(** A stack of the free blocks: allocate pops, deallocate pushes. *)
Fixpoint lifo (n : nat) (tr : trace) : list nat :=
  match tr with
  | [] => seq 0 n
  | (Alloc _ _, OPtr (At b)) :: t => tl (lifo n t)
  | (Free (At b), _) :: t => b :: lifo n t
  | _ :: t => lifo n t
  end.

(** The client obeys the ownership rules: it returns and accesses only blocks it holds. *)
Definition legal (tr : trace) (o : op) : Prop :=
  match o with
  | Alloc _ _ => True
  | Free Null => True
  | Free (At b) => In b (outstanding tr)
  | Free (Wild _) => False
  | Write b _ => In b (outstanding tr)
  | Read b => In b (outstanding tr)
  end.

(** All histories of a pool of [n] blocks of [bs] bytes, with an arbitrary rule-abiding client. *)
Inductive history (n : nat) (bs : Z) (exc : bool) : trace -> pool -> Prop :=
  | history_init : history n bs exc [] (pool_init n)
  | history_step : forall tr p o r p',
      history n bs exc tr p -> legal tr o -> step bs exc o p = Ret (r, p') ->
      history n bs exc ((o, r) :: tr) p'.

(** The call gave the client no block. *)
Definition refused (r : obs) : Prop := r = OPtr Null \/ r = OThrow.

(** [k] requests of [sz] bytes. *)
Fixpoint allocs (k : nat) (sz : Z) : list op := match k with O => [] | S k' => Alloc sz 0 :: allocs k' sz end.

(** Extending a history by a list of operations, first operation first. *)
Inductive continues (n : nat) (bs : Z) (exc : bool) : trace -> pool -> list op -> trace -> pool -> Prop :=
  | cont_nil : forall tr p, continues n bs exc tr p [] tr p
  | cont_cons : forall tr p o ops r p1 tr' p',
      step bs exc o p = Ret (r, p1) -> continues n bs exc ((o, r) :: tr) p1 ops tr' p' ->
      continues n bs exc tr p (o :: ops) tr' p'.

(** The same blocks over and over, in the same order: the first [k] of l, l, l, ... *)
Definition over_and_over (l : list nat) (k : nat) : list nat := map (fun j => nth (j mod length l) l O) (seq 0 k).

(** The events of requests of [sz] bytes served with the blocks [l], first request first. *)
Definition served (sz : Z) (l : list nat) : trace := map (fun b => (Alloc sz 0, OPtr (At b))) l.
