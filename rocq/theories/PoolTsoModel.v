(** StaticMemoryPool (libuavcan/include/libuavcan/platform/memory.hpp lines 139-177) on a machine whose cores buffer their stores: a plain
    store waits in the buffer of its core, where only that core sees it, and reaches memory later; a read-modify-write of an atomic waits until
    the buffer is empty. On x86 (total store order) the stores leave in order; here stores to different blocks may also overtake each
    other (partial store order). Each thread has a core of its own. The rest is as in PoolConcModel.v. *)
From Coq Require Import ZArith Bool List Arith.
From Verif Require Import Outcome CanFrameModel PoolModel PoolConcModel PoolUseSpec.
Import ListNotations.
Open Scope nat_scope.

(** The state of memory.hpp lines 81 and 89 and of the threads, and the stores to blocks that have not reached memory, oldest first. *)
Record tstate : Type := TState {
  base : cstate;
  buffers : nat -> list (nat * cell)
}.

(** The value of the newest store to block [b] in a buffer; of memory.hpp line 175 or of a client. *)
Fixpoint pending (l : list (nat * cell)) (b : nat) : option cell :=
  match l with
  | [] => None
  | (b', c) :: l => match pending l b with Some x => Some x | None => if b' =? b then Some c else None end
  end.
(** What thread [t] reads from block [b], as at memory.hpp line 156. *)
Definition sees (s : tstate) (t b : nat) : option cell :=
  match pending (buffers s t) b with Some c => Some c | None => nth_error (cmem (base s)) b end.
(** A store to block [b] enters the buffer of thread [t], as at memory.hpp line 175. *)
Definition store (s : tstate) (t b : nat) (c : cell) : nat -> list (nat * cell) :=
  fun t' => if t' =? t then buffers s t ++ [(b, c)] else buffers s t'.

(** What happens next: an event of memory.hpp lines 139-177 or of its clients, or a store of a thread reaches memory, the one
    at position [k] of its buffer ([k] = 0 is the oldest). *)
Inductive tevent : Type :=
  | TDo (e : event)
  | TFlush (t k : nat).
(** Of a step of memory.hpp lines 139-177 on this machine. *)
Inductive teffect : Type :=
  | TDisabled
  | TCrash
  | TStep (s : tstate).
(** An event that stores nothing to a block, memory.hpp lines 139-177. *)
Definition on_base (s : tstate) (e : effect) : teffect :=
  match e with Disabled => TDisabled | Crash => TCrash | Step c => TStep (TState c (buffers s)) end.

(** memory.hpp lines 139-177, access by access. *)
Definition tstep (e : tevent) (s : tstate) : teffect :=
  let c := base s in
  match e with
  | TDo (Do (LRead t)) =>
      match pcs c t with
      | ARead (At b) => match sees s t b with
                        | Some x => TStep (TState (set_pc c t (ACas (At b) (as_ptr x))) (buffers s))
                        | None => TCrash
                        end
      | ARead _ => TCrash
      | _ => TDisabled
      end
  | TDo (Do (LCas t spurious)) => match buffers s t with [] => on_base s (cstep (LCas t spurious) c) | _ => TDisabled end
  | TDo (Do (LXchg t)) => match buffers s t with [] => on_base s (cstep (LXchg t) c) | _ => TDisabled end
  | TDo (Do (LLink t)) =>
      match pcs c t with
      | DLink b old =>
          if b <? length (cmem c)
          then TStep (TState (CState (cmem c) (chead c) (upd (pcs c) t Idle) (holders c) (pops c)) (store s t b (CNext old)))
          else TCrash
      | _ => TDisabled
      end
  | TDo (Do (LWrite t b v)) =>
      match pcs c t with
      | Idle => if holds c t b && (b <? length (cmem c)) then TStep (TState c (store s t b (CData v))) else TDisabled
      | _ => TDisabled
      end
  | TDo (Give t t' b) => match pending (buffers s t) b with None => on_base s (happens (Give t t' b) c) | Some _ => TDisabled end
  | TDo (Do l) => on_base s (cstep l c)
  | TFlush t k =>
      match nth_error (buffers s t) k with
      | None => TDisabled
      | Some (b, x) =>
          match pending (firstn k (buffers s t)) b with
          | Some _ => TDisabled
          | None => TStep (TState (CState (replace_nth b x (cmem c)) (chead c) (pcs c) (holders c) (pops c))
                             (fun t' => if t' =? t then firstn k (buffers s t) ++ skipn (S k) (buffers s t) else buffers s t'))
          end
      end
  end.

(** The pool after construction (memory.hpp lines 91-107), which is visible to all threads. *)
Definition tinit (n : nat) : tstate := TState (cinit n) (fun _ => []).
