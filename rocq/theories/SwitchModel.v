(** Units of one program that are compiled with and without exceptions: libuavcan/include/libuavcan/build_config.hpp lines 69-78 and
    platform/memory.hpp lines 139-168 and 278-281. Cited below without the directory. *)
From Coq Require Import Bool List Arith.
Import ListNotations.

(** An allocator, memory.hpp lines 199-205: NumBlocksParam, BlockSizeParam and, as a number, T. MemoryPoolType is the default. *)
Record allocator : Type := Allocator { num_blocks : nat; block_size : nat; element : nat }.

(** The pool of an allocator, memory.hpp lines 41-60 and 199-205: it depends on two of the arguments only. *)
Definition pool_of (a : allocator) : nat * nat := (num_blocks a, block_size a).

(** A unit: whether exceptions are on in the compiler, whether it then defines __cpp_exceptions, what the user defines
    LIBUAVCAN_ENABLE_EXCEPTIONS as (build_config.hpp lines 74-78), and the allocators whose allocate it calls, as in memory.hpp line 278. *)
Record piece : Type := Piece { on : bool; announced : bool; chosen : option bool; calls : list allocator }.

(** The value of LIBUAVCAN_ENABLE_EXCEPTIONS in memory.hpp lines 150 and 161, after build_config.hpp lines 74-78. *)
Definition enabled (u : piece) : bool := match chosen u with Some b => b | None => on u && announced u end.

(** The unit compiles: memory.hpp lines 150-153 and 161-164 need exceptions. *)
Definition compiles (u : piece) : bool := implb (enabled u) (on u).

(** A compiler and a linker: which units' compiled code of PoolAllocator::allocate (memory.hpp line 278) and StaticMemoryPool::allocate (memory.hpp line 139) is
    inserted where it is called, and which unit's copy the linker keeps otherwise. Units are numbered. *)
Record toolchain : Type := Toolchain {
  inserts_outer : nat -> allocator -> bool;
  inserts_inner : nat -> allocator -> bool;
  keeps_outer : allocator -> nat;
  keeps_inner : nat * nat -> nat
}.

(** The unit whose text of memory.hpp lines 139-168 is executed when unit [u] calls allocate. *)
Definition executed (t : toolchain) (u : nat) (a : allocator) : nat :=
  let w := if inserts_outer t u a then u else keeps_outer t a in
  if inserts_inner t w a then w else keeps_inner t (pool_of a).

(** What a call of allocate ends with: memory.hpp lines 139-168. *)
Inductive outcome : Type := Block | Null | BadAlloc.

(** StaticMemoryPool::allocate, memory.hpp lines 139-168, as compiled with LIBUAVCAN_ENABLE_EXCEPTIONS [e]: [size] bytes are asked for, [free] blocks are free. *)
Definition pool_allocate (e : bool) (limit size free : nat) : outcome :=
  if size <=? limit
  then match free with
       | O => if e then BadAlloc else Null
       | S _ => Block
       end
  else if e then BadAlloc else Null.

(** Unit [u] calls allocate, memory.hpp lines 278-281. *)
Definition allocate (t : toolchain) (p : list piece) (u : nat) (a : allocator) (size free : nat) : outcome :=
  match nth_error p (executed t u a) with
  | Some w => pool_allocate (enabled w) (block_size a) size free
  | None => Null
  end.
