(** StaticMemoryPool (libuavcan/include/libuavcan/platform/memory.hpp lines 41-178) used by any number of threads.
    Each access to shared memory is one step, and the steps of different threads interleave arbitrarily (sequential
    consistency; the C++ memory model would make the unsynchronised accesses to [next] a data race, that is undefined, so
    this model is more favourable to the code than the language). *)
From Coq Require Import ZArith Bool List Arith.
From Verif Require Import Outcome CanFrameModel PoolModel.
Import ListNotations.
Open Scope Z_scope.

(** Where a thread is in allocate (memory.hpp lines 139-168) or deallocate (lines 170-177). *)
Inductive pc : Type :=
  | Idle                        (* outside the pool *)
  | ALoad                       (* about to load free_list_, line 147 *)
  | ARead (prev : ptr)          (* about to read previous->next, line 156 *)
  | ACas (prev next : ptr)      (* about to compare-exchange, line 157 *)
  | DXchg (b : nat)             (* about to exchange free_list_, line 175 (right-hand side) *)
  | DLink (b : nat) (old : ptr) (* about to store reclaimed_block->next, line 175 (assignment) *).

(** Shared memory, the place of each thread, and which thread holds which block. [pops] counts successful allocations (a
    ghost, read by no step). memory.hpp lines 81 and 89 and the threads that execute lines 139-177. *)
Record cstate : Type := CState {
  cmem : list cell;
  chead : ptr;
  pcs : nat -> pc;
  holders : list (nat * nat);
  pops : nat
}.

(** One step of thread [t]. Of memory.hpp lines 139-177. *)
Inductive label : Type :=
  | LStartAlloc (t : nat)               (* call allocate with a size that fits *)
  | LLoad (t : nat)
  | LRead (t : nat)
  | LCas (t : nat) (spurious : bool)    (* spurious: the weak compare-exchange fails although it need not *)
  | LStartFree (t b : nat)              (* call deallocate with a block the thread holds *)
  | LXchg (t : nat)
  | LLink (t : nat)
  | LWrite (t b : nat) (v : Z)          (* the thread writes to a block it holds *).

(** Of a step of memory.hpp lines 139-177. *)
Inductive effect : Type :=
  | Disabled           (* the thread is not at that point *)
  | Crash              (* a pointer that is not a block is followed *)
  | Step (s : cstate).

(** A thread goes on in memory.hpp lines 139-177. *)
Definition upd (f : nat -> pc) (t : nat) (c : pc) : nat -> pc := fun t' => if (t' =? t)%nat then c else f t'.
(** A thread goes on in memory.hpp lines 139-177. *)
Definition set_pc (s : cstate) (t : nat) (c : pc) : cstate :=
  CState (cmem s) (chead s) (upd (pcs s) t c) (holders s) (pops s).

(** A block that memory.hpp line 167 returned to the thread. *)
Definition holds (s : cstate) (t b : nat) : bool :=
  existsb (fun h => (fst h =? t)%nat && (snd h =? b)%nat) (holders s).
(** The block is given back, memory.hpp line 170. *)
Definition drop (t b : nat) (l : list (nat * nat)) : list (nat * nat) :=
  List.filter (fun h => negb ((fst h =? t)%nat && (snd h =? b)%nat)) l.

(** The comparison of memory.hpp line 157. *)
Definition ptr_eqb (p q : ptr) : bool :=
  match p, q with
  | Null, Null => true
  | At a, At b => (a =? b)%nat
  | Wild a, Wild b => a =? b
  | _, _ => false
  end.

(** memory.hpp lines 139-177. *)
Definition cstep (l : label) (s : cstate) : effect :=
  match l with
  | LStartAlloc t => match pcs s t with Idle => Step (set_pc s t ALoad) | _ => Disabled end
  | LLoad t =>
      match pcs s t with
      | ALoad => Step (set_pc s t (match chead s with Null => Idle | p => ARead p end))
      | _ => Disabled
      end
  | LRead t =>
      match pcs s t with
      | ARead (At b) => match nth_error (cmem s) b with
                        | Some c => Step (set_pc s t (ACas (At b) (as_ptr c)))
                        | None => Crash
                        end
      | ARead _ => Crash
      | _ => Disabled
      end
  | LCas t spurious =>
      match pcs s t with
      | ACas (At b) next =>
          if ptr_eqb (chead s) (At b) && negb spurious
          then Step (CState (cmem s) next (upd (pcs s) t Idle) ((t, b) :: holders s) (S (pops s)))
          else Step (set_pc s t ALoad)
      | _ => Disabled
      end
  | LStartFree t b =>
      match pcs s t with
      | Idle => if holds s t b
                then Step (CState (cmem s) (chead s) (upd (pcs s) t (DXchg b)) (drop t b (holders s)) (pops s))
                else Disabled
      | _ => Disabled
      end
  | LXchg t =>
      match pcs s t with
      | DXchg b => Step (CState (cmem s) (At b) (upd (pcs s) t (DLink b (chead s))) (holders s) (pops s))
      | _ => Disabled
      end
  | LLink t =>
      match pcs s t with
      | DLink b old =>
          if (b <? length (cmem s))%nat
          then Step (CState (replace_nth b (CNext old) (cmem s)) (chead s) (upd (pcs s) t Idle) (holders s) (pops s))
          else Crash
      | _ => Disabled
      end
  | LWrite t b v =>
      match pcs s t with
      | Idle => if holds s t b && (b <? length (cmem s))%nat
                then Step (CState (replace_nth b (CData v) (cmem s)) (chead s) (pcs s) (holders s) (pops s))
                else Disabled
      | _ => Disabled
      end
  end.

(** The pool after construction (memory.hpp lines 91-107), all threads idle. *)
Definition cinit (n : nat) : cstate :=
  CState (mem (pool_init n)) (head (pool_init n)) (fun _ => Idle) [] 0.

(** Running a schedule. Any steps of memory.hpp lines 139-177. *)
Fixpoint crun (ls : list label) (s : cstate) : effect :=
  match ls with
  | [] => Step s
  | l :: t => match cstep l s with Step s' => crun t s' | e => e end
  end.
