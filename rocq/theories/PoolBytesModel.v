(** Byte-level model of StaticMemoryPool and PoolAllocator, libuavcan/include/libuavcan/platform/memory.hpp lines 41-305,
    used by one thread at a time. PoolModel.v treats the contents of a block as one value; here storage_ is addressed byte
    by byte, the member [next] occupies the first bytes of its block and a client may write anywhere in storage_.
    Simplifications: pointers are stored least significant byte first and the null pointer as zero, as on every platform
    the library is built for. *)
From Coq Require Import ZArith Bool List.
From Verif Require Import Outcome PoolModel.
Import ListNotations.
Open Scope Z_scope.

(** What the template parameters and the platform fix: NumBlocksParam, BlockSizeParam (memory.hpp lines 41-42), sizeof(Block* ),
    sizeof(std::max_align_t), the alignment of a block and the address of storage_ (line 81). *)
Record layout : Type := Layout {
  l_num : nat; l_bs : Z; l_ps : nat; l_ma : Z; l_al : Z; l_base : Z }.

(** sizeof(Block), memory.hpp lines 52-75. *)
Definition l_stride (L : layout) : Z := block_stride (l_bs L) (Z.of_nat (l_ps L)) (l_ma L) (l_al L).
(** &list[i], memory.hpp lines 99-104. *)
Definition l_addr (L : layout) (i : nat) : Z := block_address (l_base L) (l_stride L) i.
(** The first address behind storage_. memory.hpp line 81. *)
Definition l_end (L : layout) : Z := l_base L + Z.of_nat (l_num L) * l_stride L.

(** Memory: a byte for every address. What storage_ (memory.hpp line 81) is part of. *)
Definition bytes := Z -> Z.
(** Reading bytes of storage_ (memory.hpp line 81). *)
Definition load (m : bytes) (a : Z) (k : nat) : list Z := map (fun i => m (a + Z.of_nat i)) (seq 0 k).
(** Writing bytes of storage_ (memory.hpp line 81). *)
Definition store (m : bytes) (a : Z) (l : list Z) : bytes :=
  fun x => if (a <=? x) && (x <? a + Z.of_nat (length l)) then nth (Z.to_nat (x - a)) l 0 else m x.

(** The object representation of a pointer of [k] bytes. The member [next], memory.hpp line 66. *)
Fixpoint encode (k : nat) (v : Z) : list Z :=
  match k with
  | O => []
  | S k' => v mod 256 :: encode k' (v / 256)
  end.
(** Reading the member [next], memory.hpp line 66. *)
Fixpoint decode (l : list Z) : Z :=
  match l with
  | [] => 0
  | b :: t => b + 256 * decode t
  end.

(** storage_ (line 81) and free_list_ (line 89); the null pointer is 0. *)
Record bpool : Type := BPool { bmem : bytes; bhead : Z }.

(** Is this the address of one of the blocks?. An element of storage_, memory.hpp line 81. *)
Definition is_block (L : layout) (a : Z) : bool :=
  (l_base L <=? a) && (a <? l_end L) && ((a - l_base L) mod l_stride L =? 0).

(** The member [next] of the block at [a]; undefined if there is no block at [a]. As at memory.hpp line 156. *)
Definition get_next (L : layout) (m : bytes) (a : Z) : outcome Z :=
  if is_block L a then Ret (decode (load m a (l_ps L))) else UB.
(** As at memory.hpp lines 100, 104 and 175. *)
Definition set_next (L : layout) (m : bytes) (a : Z) (v : Z) : outcome bytes :=
  if is_block L a then Ret (store m a (encode (l_ps L) v)) else UB.

(** memory.hpp lines 101-106: the loop of the constructor, for i = n, ..., 1; [next] is the block linked last. *)
Fixpoint binit_loop (L : layout) (i : nat) (next : Z) (m : bytes) : bytes :=
  match i with
  | O => m
  | S i' => binit_loop L i' (l_addr L i') (store m (l_addr L i') (encode (l_ps L) next))
  end.
(** memory.hpp lines 91-107: the constructor; storage_() zero-initialises (memory.hpp line 92). *)
Definition bpool_init (L : layout) : bpool :=
  let last := l_addr L (l_num L - 1) in
  let m := store (fun _ => 0) last (encode (l_ps L) 0) in
  BPool (binit_loop L (l_num L - 1) last m) (l_addr L 0).

(** What a call gives its caller. The calls of memory.hpp lines 139-177. *)
Inductive bobs : Type := BPtr (a : Z) | BThrow | BBytes (l : list Z) | BNone.

(** What a refused allocate reports, memory.hpp lines 150-154 and 161-164. *)
Definition brefused (exc : bool) : bobs := if exc then BThrow else BPtr 0.

(** memory.hpp lines 145-157; [spurious] counts the spurious failures of the weak compare-exchange. *)
Fixpoint balloc_loop (L : layout) (exc : bool) (spurious : nat) (s : bpool) : outcome (bobs * bpool) :=
  if bhead s =? 0 then Ret (brefused exc, s)
  else
    let* next := get_next L (bmem s) (bhead s) in
    match spurious with
    | S k => balloc_loop L exc k s
    | O => Ret (BPtr (bhead s), BPool (bmem s) next)
    end.
(** memory.hpp lines 139-168: allocate. *)
Definition ballocate (L : layout) (exc : bool) (size : Z) (spurious : nat) (s : bpool) : outcome (bobs * bpool) :=
  if size <=? l_bs L then balloc_loop L exc spurious s else Ret (brefused exc, s).
(** memory.hpp lines 170-177: deallocate. *)
Definition bdeallocate (L : layout) (a : Z) (s : bpool) : outcome bpool :=
  if a =? 0 then Ret s
  else let* m := set_next L (bmem s) a (bhead s) in Ret (BPool m a).

(** A client's access to the bytes from [a] on. It is undefined outside storage_. (Strictly it is undefined outside the
    client's own block as well; the model gives it the effect it has on every known platform, so that the damage shows.)
    The member data, memory.hpp line 59. *)
Definition bwrite (L : layout) (a : Z) (l : list Z) (s : bpool) : outcome bpool :=
  if (l_base L <=? a) && (a + Z.of_nat (length l) <=? l_end L) then Ret (BPool (store (bmem s) a l) (bhead s)) else UB.
(** Reading the member data, memory.hpp line 59. *)
Definition bread (L : layout) (a : Z) (k : nat) (s : bpool) : outcome (list Z) :=
  if (l_base L <=? a) && (a + Z.of_nat k <=? l_end L) then Ret (load (bmem s) a k) else UB.

(** What a client can do. memory.hpp lines 139-177 and accesses to data (line 59). *)
Inductive bop : Type :=
  | BAlloc (size : Z) (spurious : nat)
  | BFree (a : Z)
  | BWrite (a : Z) (l : list Z)
  | BRead (a : Z) (k : nat).
(** memory.hpp lines 139-177 and accesses to data (line 59). *)
Definition bstep (L : layout) (exc : bool) (o : bop) (s : bpool) : outcome (bobs * bpool) :=
  match o with
  | BAlloc size k => ballocate L exc size k s
  | BFree a => let* s' := bdeallocate L a s in Ret (BNone, s')
  | BWrite a l => let* s' := bwrite L a l s in Ret (BNone, s')
  | BRead a k => let* l := bread L a k s in Ret (BBytes l, s)
  end.
