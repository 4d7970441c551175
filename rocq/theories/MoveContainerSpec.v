(** Containers and their allocators. *)
From Coq Require Import List Arith.
From Verif Require Import AllocCopyModel MoveContainerModel.
Import ListNotations.

(** The program compiles: each of its operations does. *)
Definition compiled (lib : library) (user : option comparison) (p : list operation) : Prop := forall o, In o p -> compiles lib user o = true.

(** Every block that the program returns goes to the pool it was taken from. *)
Definition returned_right (g : pool_type) (user : option comparison) (p : list operation) : Prop :=
  forall from to, In (from, to) (returned (run g user p)) -> from = to.

(** The program swaps no containers. *)
Definition no_swap (p : list operation) : Prop := forall i j, ~ In (Swap i j) p.

(** Two allocators that the user's comparison calls equal use one pool, as the standard demands of a comparison. *)
Definition sound (g : pool_type) (eq : comparison) : Prop := forall m n, eq (g m) (g n) = true -> g m = g n.

(** How many elements a container has. *)
Definition size (w : world) (i : nat) : option nat := option_map (fun c => length (blocks c)) (box w i).

(** How many blocks of a pool all containers together have. *)
Definition in_containers (w : world) (pool : nat) : nat :=
  list_sum (map (fun i => match box w i with Some c => count_occ Nat.eq_dec (blocks c) pool | None => 0 end) (seq 0 (number w))).

(** Each block of a pool that was taken is in one container, or was returned once. *)
Definition accounted (w : world) : Prop :=
  forall pool, count_occ Nat.eq_dec (taken w) pool = in_containers w pool + count_occ Nat.eq_dec (map fst (returned w)) pool.
