(** Model of StaticMemoryPool and PoolAllocator, libuavcan/include/libuavcan/platform/memory.hpp lines 41-305, used by one
    thread at a time (PoolConc*.v interleave several threads).
    A block is identified by its position in storage_. A block's bytes are one cell: what the client wrote, seen as one
    value, or the internal [next] pointer; the union Block (lines 52-75) makes the two overlap, so writing one destroys the
    other. *)
From Coq Require Import ZArith Bool List.
From Verif Require Import Outcome CanFrameModel.
Import ListNotations.
Open Scope Z_scope.

(** A Block*: null, a block of the pool, or a pointer that is neither (bytes of client data read as a pointer, or a
    pointer from elsewhere). memory.hpp line 66. *)
Inductive ptr : Type := Null | At (b : nat) | Wild (z : Z).

(** The contents of a block, memory.hpp lines 52-75. *)
Inductive cell : Type := CData (v : Z) | CNext (p : ptr).

(** Reading the member [next]. As at memory.hpp line 156. *)
Definition as_ptr (c : cell) : ptr := match c with CNext p => p | CData v => Wild v end.

(** storage_ (memory.hpp line 81) and free_list_ (line 89). *)
Record pool : Type := Pool { mem : list cell; head : ptr }.

(** What a call returns to the client. memory.hpp lines 139-177 and 262-304. *)
Inductive obs : Type :=
  | OPtr (p : ptr)    (* pointer returned by allocate *)
  | OThrow            (* std::bad_alloc *)
  | OData (c : cell)  (* contents read by the client *)
  | ONone.

(** memory.hpp lines 100-106: the loop of the constructor, for i = n, ..., 1. [next] is the block linked last. *)
Fixpoint init_loop (i : nat) (next : ptr) (m : list cell) : list cell :=
  match i with
  | O => m
  | S i' => init_loop i' (At i') (replace_nth i' (CNext next) m)
  end.

(** memory.hpp lines 91-107: the constructor; storage_() zero-initialises, line 92. NumBlocksParam > 0 by the static_assert. *)
Definition pool_init (n : nat) : pool :=
  let m := repeat (CData 0) n in
  let m := replace_nth (n - 1) (CNext Null) m in
  Pool (init_loop (n - 1) (At (n - 1)) m) (At 0).

(** What a failed allocate reports: bad_alloc with LIBUAVCAN_ENABLE_EXCEPTIONS (memory.hpp lines 150-153, 161-164), else nullptr. *)
Definition alloc_failed (exc : bool) : obs := if exc then OThrow else OPtr Null.

(** memory.hpp lines 145-157: the loop of allocate. [spurious] is the number of times the weak compare-exchange fails spuriously
    before it succeeds; with one thread it cannot fail otherwise. Following a pointer that is not a block is undefined. *)
Fixpoint alloc_loop (exc : bool) (spurious : nat) (p : pool) : outcome (obs * pool) :=
  match head p with
  | Null => Ret (alloc_failed exc, p)
  | Wild _ => UB
  | At b =>
      match nth_error (mem p) b with
      | None => UB
      | Some c =>
          match spurious with
          | S k => alloc_loop exc k p
          | O => Ret (OPtr (At b), Pool (mem p) (as_ptr c))
          end
      end
  end.

(** memory.hpp lines 139-168: allocate. *)
Definition allocate (bs : Z) (exc : bool) (size : Z) (spurious : nat) (p : pool) : outcome (obs * pool) :=
  if size <=? bs then alloc_loop exc spurious p else Ret (alloc_failed exc, p).

(** memory.hpp lines 170-177: deallocate. The pointer is not checked; writing through one that is not a block is undefined. *)
Definition deallocate (q : ptr) (p : pool) : outcome pool :=
  match q with
  | Null => Ret p
  | Wild _ => UB
  | At b => if (b <? length (mem p))%nat then Ret (Pool (replace_nth b (CNext (head p)) (mem p)) (At b)) else UB
  end.

(** What a client can do: PoolAllocator::allocate (memory.hpp lines 262-281) and deallocate (lines 289-296), which forward to the
    pool, and accesses to the contents of a block. *)
Inductive op : Type :=
  | Alloc (size : Z) (spurious : nat)
  | Free (q : ptr)
  | Write (b : nat) (v : Z)
  | Read (b : nat).

(** memory.hpp lines 139-177. *)
Definition step (bs : Z) (exc : bool) (o : op) (p : pool) : outcome (obs * pool) :=
  match o with
  | Alloc size k => allocate bs exc size k p
  | Free q => let* p' := deallocate q p in Ret (ONone, p')
  | Write b v => if (b <? length (mem p))%nat then Ret (ONone, Pool (replace_nth b (CData v) (mem p)) (head p)) else UB
  | Read b => match nth_error (mem p) b with Some c => Ret (OData c, p) | None => UB end
  end.

(** memory.hpp lines 301-304: PoolAllocator::max_size. *)
Definition max_size (bs : Z) : Z := bs.

(** sizeof(Block), memory.hpp lines 52-75: the largest member, rounded up to the alignment [al]. [ps] is sizeof(Block* ), [ma] is
    sizeof(std::max_align_t). *)
Definition block_stride (bs ps ma al : Z) : Z := (Z.max bs (Z.max ps ma) + al - 1) / al * al.

(** Address of block [i]: memory.hpp lines 95-106 index storage_ as an array of Block. *)
Definition block_address (base stride : Z) (i : nat) : Z := base + Z.of_nat i * stride.
