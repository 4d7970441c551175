(** What a unit may expect of allocate. *)
From Coq Require Import Bool List Arith.
From Verif Require Import SwitchModel.
Import ListNotations.

(** Unit number [n] of the program calls allocate of [a]. *)
Definition calls_from (p : list piece) (n : nat) (a : allocator) : Prop :=
  exists u, nth_error p n = Some u /\ In a (calls u).

(** The linker keeps a copy that there is: of a unit that has the function. *)
Definition faithful (p : list piece) (t : toolchain) : Prop :=
  forall n a, calls_from p n a ->
  calls_from p (keeps_outer t a) a /\
  exists b, calls_from p (keeps_inner t (pool_of a)) b /\ num_blocks b = num_blocks a /\ block_size b = block_size a.

(** An allocation can be served. *)
Definition served (a : allocator) (size free : nat) : Prop := size <= block_size a /\ 0 < free.

(** It ends as the unit was compiled for: with a block if it can be served, otherwise with bad_alloc or with null. *)
Definition as_compiled (u : piece) (a : allocator) (size free : nat) (o : outcome) : Prop :=
  (served a size free -> o = Block) /\
  (~ served a size free -> (enabled u = true -> o = BadAlloc) /\ (enabled u = false -> o = Null)).

(** All allocations of a program end as the unit that asks was compiled for. *)
Definition respected (p : list piece) (t : toolchain) : Prop :=
  forall n u a size free, nth_error p n = Some u -> In a (calls u) -> as_compiled u a size free (allocate t p n a size free).
