(** Copying the pool allocator: libuavcan/include/libuavcan/platform/memory.hpp lines 133-137 and 186-245. Cited below as memory.hpp. *)
From Coq Require Import Bool List Arith.
Import ListNotations.

(** The constructors of memory.hpp lines 208-225: without argument, from a const lvalue reference and from a const rvalue reference to the same type, and the
    template from allocators of any element T1, with the other arguments the same. *)
Inductive constructor : Type := Default | CopyCtor | MoveCtor | Converting (t1 : nat).

(** The keyword explicit: memory.hpp lines 208, 212, 216 and 223. *)
Definition is_explicit (c : constructor) : bool := match c with Default | CopyCtor | MoveCtor => true | Converting _ => false end.

(** How an object is initialized from the argument: X u(a), or X u = a, an argument or a result by value, as with memory.hpp lines 208-225. *)
Inductive form : Type := Direct | Copy.
(** Whether the argument is an lvalue or an rvalue, as memory.hpp lines 212 and 216 tell apart. *)
Inductive category : Type := Lvalue | Rvalue.

(** The argument: none, or an allocator whose element is [t], as in memory.hpp line 223. Elements are numbered. *)
Inductive argument : Type := Nothing | Allocator (t : nat) (k : category).

(** The constructors that can take the argument, for an allocator of element [t]: memory.hpp lines 208-225. The template is one also for the element of the class
    itself. Simplification: conversions of the argument by a constructor are left out, because the template takes every such argument as it is. *)
Definition viable (t : nat) (a : argument) : list constructor :=
  match a with
  | Nothing => [Default]
  | Allocator t1 k =>
      (if t1 =? t then CopyCtor :: match k with Rvalue => [MoveCtor] | Lvalue => [] end else []) ++ [Converting t1]
  end.

(** Which of two is the better match, memory.hpp lines 212-223: binding an rvalue to an rvalue reference first, then what is no template. *)
Definition rank (c : constructor) : nat := match c with MoveCtor => 0 | CopyCtor => 1 | Default => 1 | Converting _ => 2 end.

(** The better one so far, as memory.hpp line 212 against line 223. *)
Definition better (best : option constructor) (c : constructor) : option constructor :=
  match best with
  | None => Some c
  | Some b => if rank c <? rank b then Some c else Some b
  end.

(** Overload resolution for memory.hpp lines 208-225: explicit constructors take part in X u(a) only. *)
Definition chosen (t : nat) (f : form) (a : argument) : option constructor :=
  fold_left better (filter (fun c => match f with Direct => true | Copy => negb (is_explicit c) end) (viable t a)) None.

(** A type of pool with its getReference, memory.hpp lines 190-191: the pool that the n-th call answers with. The documented requirements say no more. *)
Definition pool_type : Type := nat -> nat.

(** StaticMemoryPool::getReference, memory.hpp lines 133-137: one object with static storage duration. *)
Definition static_pool (the_object : nat) : pool_type := fun _ => the_object.

(** An allocator: its element and pool_, memory.hpp line 205. *)
Record made : Type := Made { element : nat; pool : nat }.

(** The allocators of a program in the order they are made, and how often getReference was called: memory.hpp lines 208-225. *)
Record state : Type := State { allocators : list made; called : nat }.

(** The initialization of pool_ in each constructor: memory.hpp lines 209, 213, 217 and 224. *)
Definition construct (g : pool_type) (t : nat) (c : constructor) (rhs : nat) (s : state) : state :=
  match c with
  | Default | Converting _ => State (allocators s ++ [Made t (g (called s))]) (S (called s))
  | CopyCtor | MoveCtor => State (allocators s ++ [Made t rhs]) (called s)
  end.

(** What a program does: it makes an allocator, or makes one of element [t] from the one with number [i], by memory.hpp lines 208-225. *)
Inductive action : Type :=
| New (t : nat)
| From (i : nat) (f : form) (k : category) (t : nat).

(** One action, memory.hpp lines 208-225. One that refers to no allocator does nothing. *)
Definition act (g : pool_type) (s : state) (a : action) : state :=
  match a with
  | New t => match chosen t Direct Nothing with Some c => construct g t c 0 s | None => s end
  | From i f k t =>
      match nth_error (allocators s) i with
      | None => s
      | Some m => match chosen t f (Allocator (element m) k) with Some c => construct g t c (pool m) s | None => s end
      end
  end.

(** A history, by memory.hpp lines 208-225. *)
Definition history (g : pool_type) (h : list action) : state := fold_left (act g) h (State [] 0).

(** allocate takes a block of, and deallocate gives it to, the pool of the allocator: memory.hpp lines 278-296. *)
Definition pool_used (g : pool_type) (h : list action) (i : nat) : option nat := option_map pool (nth_error (allocators (history g h)) i).
