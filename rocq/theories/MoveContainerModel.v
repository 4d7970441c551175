(** Containers that use the pool allocator: libuavcan/include/libuavcan/platform/memory.hpp lines 199-305 with what the C++ standard says of containers
    (allocator.requirements and container.requirements.general). Cited below as memory.hpp. *)
From Coq Require Import Bool List Arith String.
From Verif Require Import AllocCopyModel.
Import ListNotations.
Local Open Scope string_scope.

(** The public names of the class, memory.hpp lines 207-305, constructors aside. *)
Definition declared : list string :=
  ["pointer"; "const_pointer"; "value_type"; "size_type"; "difference_type"; "rebind"; "BlockSize"; "NumBlocks"; "allocate"; "deallocate"; "max_size"].

(** Whether the class declares a name: memory.hpp lines 207-305. *)
Definition declares (name : string) : bool := existsb (String.eqb name) declared.

(** The members that are data, memory.hpp line 205: whether each is a reference. *)
Definition data_members : list bool := [true].

(** std::allocator_traits for memory.hpp lines 199-305: a trait that the class does not declare is false. Simplification: one that it declares is true. *)
Definition propagates_on_copy_assignment : bool := declares "propagate_on_container_copy_assignment".
(** The same for moving: memory.hpp lines 199-305. *)
Definition propagates_on_move_assignment : bool := declares "propagate_on_container_move_assignment".
(** The same for swapping: memory.hpp lines 199-305. *)
Definition propagates_on_swap : bool := declares "propagate_on_container_swap".
(** is_always_equal for memory.hpp lines 199-305: without a declaration, whether the class has no data. *)
Definition always_equal : bool := declares "is_always_equal" || match data_members with [] => true | _ => false end.

(** What a container may write about allocators: initializations (memory.hpp lines 208-225), a == b, a = b, swap(a, b). *)
Inductive expression : Type := Initialize (f : form) (a : argument) | Compare | Assign | Exchange.

(** Whether the expression compiles with memory.hpp lines 199-305. [user]: whether the user supplies operator==. A class with references has no assignment of its
    own, and no exchange by assignment. *)
Definition provided (user : bool) (e : expression) : bool :=
  match e with
  | Initialize f a => match chosen 0 f a with Some _ => true | None => false end
  | Compare => user || declares "operator=="
  | Assign | Exchange => declares "operator=" || negb (existsb (fun reference => reference) data_members)
  end.

Local Close Scope string_scope.

(** What is done with containers whose allocator is that of memory.hpp lines 199-305: one is made, an element is put into one, one is made as a copy, by moving, one is assigned to
    another as a copy, by moving, two are swapped, one is emptied or destroyed. *)
Inductive operation : Type :=
| Make | Insert (i : nat) | CopyConstruct (j : nat) | MoveConstruct (j : nat) | CopyAssign (i j : nat) | MoveAssign (i j : nat) | Swap (i j : nat) | Clear (i : nat).

(** A standard library, compiled with memory.hpp lines 199-305: whether its text for an operation compares allocators although the standard does not need it there, as libstdc++ does in the
    assignment of copies of vectors, behind an if that is never true. *)
Definition library : Type := operation -> bool.

(** What each requires of the allocator of memory.hpp lines 199-305. A copy gets its allocator by value (select_on_container_copy_construction). *)
Definition needs (lib : library) (o : operation) : list expression :=
  (if lib o then [Compare] else []) ++
  match o with
  | Make => [Initialize Direct Nothing]
  | Insert _ | Clear _ => []
  | CopyConstruct _ => [Initialize Copy (Allocator 0 Lvalue); Initialize Direct (Allocator 0 Rvalue)]
  | MoveConstruct _ => [Initialize Direct (Allocator 0 Rvalue)]
  | CopyAssign _ _ => if propagates_on_copy_assignment then (if always_equal then [Assign] else [Compare; Assign]) else []
  | MoveAssign _ _ => if propagates_on_move_assignment then [Assign] else if always_equal then [] else [Compare]
  | Swap _ _ => if propagates_on_swap then [Exchange] else []
  end.

(** A comparison of allocators that the user may supply, of their pools (memory.hpp line 205). *)
Definition comparison : Type := nat -> nat -> bool.

(** The operation compiles with memory.hpp lines 199-305. *)
Definition compiles (lib : library) (user : option comparison) (o : operation) : bool :=
  forallb (provided (match user with Some _ => true | None => false end)) (needs lib o).

(** A container: the pool of its allocator (memory.hpp line 205) and, for each of its blocks, the pool it was taken from. *)
Record container : Type := Container { uses : nat; blocks : list nat }.

(** The containers by number, how many were made, how often getReference was called, each block that was returned (memory.hpp lines 289-296), with the pool it was taken from and
    the pool it was returned to, and the pool of each block that was taken (memory.hpp lines 278-281). *)
Record world : Type := World { box : nat -> option container; number : nat; calls : nat; returned : list (nat * nat); taken : list nat }.

(** Container [i] becomes [c]: the allocator itself stays, memory.hpp line 205. *)
Definition set (b : nat -> option container) (i : nat) (c : container) : nat -> option container := fun k => if k =? i then Some c else b k.

(** The pool of an allocator that is initialized, and the calls of getReference after that: memory.hpp lines 208-225. *)
Definition initialized (g : pool_type) (f : form) (a : argument) (rhs n : nat) : nat * nat :=
  match chosen 0 f a with
  | None => (rhs, n)
  | Some c =>
      let s := construct g 0 c rhs (State [] n) in
      (match allocators s with m :: _ => pool m | [] => rhs end, called s)
  end.

(** Another container, as with memory.hpp lines 208-225: its pool, its blocks, and which of them are taken for it. *)
Definition add (w : world) (pn : nat * nat) (bs new : list nat) : world :=
  World (set (box w) (number w) (Container (fst pn) bs)) (S (number w)) (snd pn) (returned w) (new ++ taken w).

(** [n] blocks from the pool of an allocator: memory.hpp lines 278-281. Simplification: there are enough. *)
Definition take (p n : nat) : list nat := repeat p n.

(** The container returns its blocks through its allocator: memory.hpp lines 289-296. *)
Definition give_back (c : container) : list (nat * nat) := map (fun b => (b, uses c)) (blocks c).

(** One operation with allocators of memory.hpp lines 199-305 whose traits are false. Simplifications: a container with n elements has n blocks; a container that is assigned a copy takes new blocks; one that is assigned
    to or swapped with itself is left as it is. Moving takes over the blocks if the allocators compare equal and moves the elements to new blocks if not. Swapping exchanges the blocks and leaves the
    allocators, equal or not. *)
Definition step (g : pool_type) (user : option comparison) (w : world) (o : operation) : world :=
  match o with
  | Make => add w (initialized g Direct Nothing 0 (calls w)) [] []
  | Insert i =>
      match box w i with
      | Some c => World (set (box w) i (Container (uses c) (take (uses c) 1 ++ blocks c))) (number w) (calls w) (returned w) (take (uses c) 1 ++ taken w)
      | None => w
      end
  | CopyConstruct j =>
      match box w j with
      | Some d =>
          let pn := initialized g Copy (Allocator 0 Lvalue) (uses d) (calls w) in
          let pn' := initialized g Direct (Allocator 0 Rvalue) (fst pn) (snd pn) in
          add w pn' (take (fst pn') (List.length (blocks d))) (take (fst pn') (List.length (blocks d)))
      | None => w
      end
  | MoveConstruct j =>
      match box w j with
      | Some d =>
          add (World (set (box w) j (Container (uses d) [])) (number w) (calls w) (returned w) (taken w))
              (initialized g Direct (Allocator 0 Rvalue) (uses d) (calls w)) (blocks d) []
      | None => w
      end
  | CopyAssign i j =>
      match box w i, box w j with
      | Some c, Some d =>
          if i =? j then w
          else World (set (box w) i (Container (uses c) (take (uses c) (List.length (blocks d))))) (number w) (calls w) (give_back c ++ returned w) (take (uses c) (List.length (blocks d)) ++ taken w)
      | _, _ => w
      end
  | MoveAssign i j =>
      match box w i, box w j, user with
      | Some c, Some d, Some eq =>
          if i =? j then w
          else if eq (uses c) (uses d)
          then World (set (set (box w) i (Container (uses c) (blocks d))) j (Container (uses d) [])) (number w) (calls w) (give_back c ++ returned w) (taken w)
          else World (set (box w) i (Container (uses c) (take (uses c) (List.length (blocks d))))) (number w) (calls w) (give_back c ++ returned w) (take (uses c) (List.length (blocks d)) ++ taken w)
      | _, _, _ => w
      end
  | Swap i j =>
      match box w i, box w j with
      | Some c, Some d =>
          if i =? j then w
          else World (set (set (box w) i (Container (uses c) (blocks d))) j (Container (uses d) (blocks c))) (number w) (calls w) (returned w) (taken w)
      | _, _ => w
      end
  | Clear i =>
      match box w i with
      | Some c => World (set (box w) i (Container (uses c) [])) (number w) (calls w) (give_back c ++ returned w) (taken w)
      | None => w
      end
  end.

(** A program that starts without containers: memory.hpp lines 199-305. *)
Definition run (g : pool_type) (user : option comparison) (p : list operation) : world :=
  fold_left (step g user) p (World (fun _ => None) 0 0 [] []).
