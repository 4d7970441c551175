(** The first use of the pool: StaticMemoryPool::getReference and the constructor,
    libuavcan/include/libuavcan/platform/memory.hpp lines 91-107 and 128-137, called by any number of threads. As in [PoolConcModel] every
    access to shared memory is one step. *)
From Coq Require Import ZArith Bool List Arith.
From Verif Require Import Outcome CanFrameModel PoolModel PoolConcModel PoolConcSpec PoolUseSpec.
Import ListNotations.
Open Scope Z_scope.

(** The variable by which the compiler remembers whether the local static (memory.hpp line 135) has been constructed. *)
Inductive guard_t : Type := Unset | Busy (t : nat) | Done.

(** Where a thread is. In memory.hpp lines 91-107 and 133-137. *)
Inductive place : Type :=
  | Outside                          (* has no reference to the pool *)
  | Zeroing (k : nat)                (* about to zero block k, storage_(), line 92 *)
  | ClearHead                        (* free_list_(), line 93 *)
  | StoreHead                        (* line 95 *)
  | LoadHead                         (* line 98 *)
  | Linking (list : ptr) (i : nat)   (* about to store list[i].next; lines 99-100 for the last block, 101-106 for the others *)
  | SetGuard                         (* the constructor has returned *)
  | Has                              (* has the reference *).

(** What memory.hpp lines 91-107 and 133-177 act on. *)
Record fstate : Type := FState { guard : guard_t; places : nat -> place; pool_of : cstate }.

(** The steps of memory.hpp lines 91-107 and 133-177. *)
Inductive flabel : Type :=
  | FEnter (t : nat)   (* call getReference: look at the guard, line 135 *)
  | FBuild (t : nat)   (* next step of the constructor *)
  | FUse (e : event)   (* use of the pool by a thread that has the reference *).

(** Of a step of memory.hpp lines 91-177. *)
Inductive feffect : Type := FDisabled | FCrash | FStep (s : fstate).

(** A thread goes on in memory.hpp lines 91-137. *)
Definition move (f : nat -> place) (t : nat) (p : place) : nat -> place := fun t' => if (t' =? t)%nat then p else f t'.
(** A thread goes on in memory.hpp lines 91-137. *)
Definition at_place (s : fstate) (t : nat) (p : place) : fstate := FState (guard s) (move (places s) t p) (pool_of s).
(** storage_ and free_list_, memory.hpp lines 81 and 89. *)
Definition with_cells (s : cstate) (m : list cell) (h : ptr) : cstate := CState m h (pcs s) (holders s) (pops s).

(** One step of the constructor, memory.hpp lines 91-107. [n] is NumBlocksParam. *)
Definition build (n t : nat) (p : place) (s : fstate) : feffect :=
  let c := pool_of s in
  match p with
  | Outside | Has => FDisabled
  | Zeroing k =>
      FStep (FState (guard s) (move (places s) t (if (S k <? n)%nat then Zeroing (S k) else ClearHead))
               (with_cells c (replace_nth k (CData 0) (cmem c)) (chead c)))
  | ClearHead => FStep (FState (guard s) (move (places s) t StoreHead) (with_cells c (cmem c) Null))
  | StoreHead => FStep (FState (guard s) (move (places s) t LoadHead) (with_cells c (cmem c) (At 0)))
  | LoadHead => FStep (at_place s t (Linking (chead c) (n - 1)))
  | Linking (At b) i =>
      if (b + i <? n)%nat
      then FStep (FState (guard s) (move (places s) t (match i with O => SetGuard | S i' => Linking (At b) i' end))
                    (with_cells c (replace_nth (b + i) (CNext (if (i =? n - 1)%nat then Null else At (b + S i))) (cmem c)) (chead c)))
      else FCrash
  | Linking _ _ => FCrash
  | SetGuard => FStep (FState Done (move (places s) t Has) (pool_of s))
  end.

(** memory.hpp line 135. With thread-safe statics ([safe]) a thread that finds the construction under way waits; with -fno-threadsafe-statics
    (test/cmake/compiler_flag_sets/cortex-m4-fpv4-sp-d16-nosys.cmake line 73) it constructs unless the guard is set, and the guard is
    set after the construction. *)
Definition enter (safe : bool) (t : nat) (s : fstate) : feffect :=
  match places s t with
  | Outside =>
      match guard s with
      | Done => FStep (at_place s t Has)
      | Busy _ => FDisabled
      | Unset => FStep (FState (if safe then Busy t else Unset) (move (places s) t (Zeroing 0)) (pool_of s))
      end
  | _ => FDisabled
  end.

(** The thread that makes a step of memory.hpp lines 139-177. *)
Definition actor (e : event) : nat := match e with Do l => thread_of l | Give t _ _ => t end.

(** memory.hpp line 135; once a thread has the reference, lines 139-177. *)
Definition fstep (safe : bool) (n : nat) (l : flabel) (s : fstate) : feffect :=
  match l with
  | FEnter t => enter safe t s
  | FBuild t => build n t (places s t) s
  | FUse e =>
      match places s (actor e) with
      | Has => match happens e (pool_of s) with
               | Disabled => FDisabled
               | Crash => FCrash
               | Step c => FStep (FState (guard s) (places s) c)
               end
      | _ => FDisabled
      end
  end.

(** Before the first use: nobody has called, the storage is whatever it is. memory.hpp lines 81, 89 and 135. *)
Definition finit (m : list cell) (h : ptr) : fstate := FState Unset (fun _ => Outside) (CState m h (fun _ => Idle) [] 0).

(** Any steps of memory.hpp lines 91-107 and 133-177. *)
Fixpoint frun (safe : bool) (n : nat) (ls : list flabel) (s : fstate) : feffect :=
  match ls with
  | [] => FStep s
  | l :: t => match fstep safe n l s with FStep s' => frun safe n t s' | e => e end
  end.
