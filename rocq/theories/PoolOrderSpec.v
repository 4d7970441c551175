(** Happens-before, as in the C++ standard, for C164. *)
From Coq Require Import ZArith Bool List Arith Relations.
From Verif Require Import Outcome PoolModel PoolConcModel PoolUseSpec PoolOrderModel.
Import ListNotations.
Open Scope nat_scope.

(** What happened in an execution, in its order, from the pool as constructed to a state. *)
Inductive history (ok : rule) (n : nat) : list action -> cstate -> Prop :=
  | history_nil : history ok n [] (cinit n)
  | history_snoc : forall tr s m s', history ok n tr s -> (forall e, m = Ev e -> allowed ok e s) -> does m s = Step s' ->
      history ok n (tr ++ [action_of m s]) s'.

(** The thread that does it; [t] of [Pass t t']. *)
Definition made_by (a : action) : nat := match a with Atomic t _ | Link t _ _ | Client t _ _ | Pass t _ | Call t => t end.
(** It is over before what this thread does next. *)
Definition over_for (a : action) (t : nat) : Prop := made_by a = t \/ exists u, a = Pass u t.

(** One thing is before another: both are of one thread, or the first synchronizes with the second. A store of free_list_ synchronizes with
    every later access to it: all stores are parts of read-modify-writes, so that what the later access reads is of the first one's release
    sequence. *)
Definition before (tr : list action) (i j : nat) : Prop :=
  i < j /\ exists a c, nth_error tr i = Some a /\ nth_error tr j = Some c /\
    (over_for a (made_by c) \/ exists t t' w, a = Atomic t true /\ c = Atomic t' w).
Definition happens_before (tr : list action) : nat -> nat -> Prop := clos_trans nat (before tr).

(** A plain access to the bytes of a block. *)
Definition touches (a : action) (b : nat) (w : bool) : Prop := exists t, a = Link t b w \/ a = Client t b w.
(** Two accesses conflict: by two threads, to one block, and one of them stores. *)
Definition conflict (a c : action) : Prop :=
  made_by a <> made_by c /\ exists b w w', touches a b w /\ touches c b w' /\ w || w' = true.

(** A data race: behaviour is undefined (C++11 1.10). *)
Definition race (tr : list action) : Prop :=
  exists i j a c, i < j /\ nth_error tr i = Some a /\ nth_error tr j = Some c /\ conflict a c /\ ~ happens_before tr i j.
Definition race_free (tr : list action) : Prop :=
  forall i j a c, i < j -> nth_error tr i = Some a -> nth_error tr j = Some c -> conflict a c -> happens_before tr i j.

(** It is something that allocate or deallocate does. *)
Definition of_pool (a : action) : Prop := match a with Atomic _ _ | Link _ _ _ => True | _ => False end.
(** All that was done in calls before a call happens before it, as with a lock around the calls. *)
Definition calls_ordered (tr : list action) : Prop :=
  forall i j a t, i < j -> nth_error tr i = Some a -> nth_error tr j = Some (Call t) -> of_pool a -> happens_before tr i j.

(** Every link that deallocate stores is stored before an allocate of another thread reads it. *)
Definition reads_ordered (tr : list action) : Prop :=
  forall i j t t' b, i < j -> nth_error tr i = Some (Link t b true) -> nth_error tr j = Some (Link t' b false) -> t <> t' ->
    happens_before tr i j.

(** Every read of a link by an allocate is ordered with every access of another thread that it conflicts with. *)
Definition link_reads_ordered (tr : list action) : Prop :=
  forall i j a c, i < j -> nth_error tr i = Some a -> nth_error tr j = Some c -> conflict a c ->
    (exists t b, a = Link t b false \/ c = Link t b false) -> happens_before tr i j.
