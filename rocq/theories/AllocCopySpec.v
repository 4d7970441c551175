(** Copies of allocators. *)
From Coq Require Import List Arith.
From Verif Require Import AllocCopyModel.
Import ListNotations.

(** Allocator number [j] was made from allocator number [i]: by the action that came when there were [j] allocators. *)
Definition made_from (g : pool_type) (h : list action) (i j : nat) : Prop :=
  exists before f k t after,
    h = before ++ From i f k t :: after /\ i < length (allocators (history g before)) /\ j = length (allocators (history g before)).

(** A copy, or a copy of a copy, and so on. *)
Inductive descends (g : pool_type) (h : list action) : nat -> nat -> Prop :=
| Made_from i j : made_from g h i j -> descends g h i j
| Through i j l : descends g h i j -> made_from g h j l -> descends g h i l.

(** What is taken through an allocator can be returned through its copies and the other way round: they use one pool. *)
Definition copies_agree (g : pool_type) : Prop :=
  forall h i j, descends g h i j -> pool_used g h i <> None /\ pool_used g h i = pool_used g h j.
