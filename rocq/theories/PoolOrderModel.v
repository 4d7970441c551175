(** What the C++ memory model sees of the use of a pool (libuavcan/include/libuavcan/platform/memory.hpp lines 139-177): which accesses are atomic,
    which are plain, and what else orders the threads. The accesses themselves are those of PoolConcModel.v. *)
From Coq Require Import ZArith Bool List Arith.
From Verif Require Import Outcome PoolModel PoolConcModel PoolUseSpec.
Import ListNotations.

(** What happens next: something of the pool or its clients (memory.hpp lines 139-177), a client that reads a block it holds, or two threads that
    synchronize by means of their own, as with a lock that [t] gives up and [t'] takes. *)
Inductive move : Type :=
  | Ev (e : event)
  | Look (t b : nat)
  | Sync (t t' : nat).
(** Of the steps of memory.hpp lines 139-177; reading and synchronizing changes nothing in the pool. *)
Definition does (m : move) (s : cstate) : effect :=
  match m with
  | Ev e => happens e s
  | Look t b => match pcs s t with Idle => if holds s t b then Step s else Disabled | _ => Disabled end
  | Sync _ _ => Step s
  end.

(** memory.hpp lines 147, 156, 157 and 175, and what clients do. *)
Inductive action : Type :=
  | Atomic (t : nat) (w : bool)    (* an access to free_list_, which is a std::atomic (line 89), in the default order memory_order_seq_cst; [w]: it stores *)
  | Link (t b : nat) (w : bool)    (* the pool's access to the plain member next of block [b]; [w]: it stores *)
  | Client (t b : nat) (w : bool)  (* an access of the holder of [b] to its bytes; [w]: it stores *)
  | Pass (t t' : nat)              (* [t] synchronizes with [t'] *)
  | Call (t : nat).                (* a call of allocate or deallocate *)

(** What a move is to the memory model: memory.hpp lines 139-177. Handing over a block synchronizes (else the clients' own accesses would be
    unordered). A compare-exchange that fails is a load. *)
Definition action_of (m : move) (s : cstate) : action :=
  match m with
  | Ev (Do (LStartAlloc t)) => Call t
  | Ev (Do (LStartFree t _)) => Call t
  | Ev (Do (LLoad t)) => Atomic t false
  | Ev (Do (LRead t)) => match pcs s t with ARead (At b) => Link t b false | _ => Call t end
  | Ev (Do (LCas t spurious)) =>
      match pcs s t with ACas (At b) _ => Atomic t (ptr_eqb (chead s) (At b) && negb spurious) | _ => Call t end
  | Ev (Do (LXchg t)) => Atomic t true
  | Ev (Do (LLink t)) => match pcs s t with DLink b _ => Link t b true | _ => Call t end
  | Ev (Do (LWrite t b _)) => Client t b true
  | Ev (Give t t' _) => Pass t t'
  | Look t b => Client t b false
  | Sync t t' => Pass t t'
  end.
