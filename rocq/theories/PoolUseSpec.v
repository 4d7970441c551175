(** Ways of using the pool from several threads or from interrupt handlers, for C112-C114. *)
From Coq Require Import ZArith Bool List Arith.
From Verif Require Import Outcome PoolModel PoolConcModel PoolConcSpec.
Import ListNotations.
Open Scope Z_scope.

(** Clients also pass blocks from one thread to another, which touches nothing of the pool. *)
Inductive event : Type :=
  | Do (l : label)                 (** a step of the pool's functions or a write of a client *)
  | Give (t t' : nat) (b : nat).   (** [t] hands block [b] over to [t'] *)
Definition happens (e : event) (s : cstate) : effect :=
  match e with
  | Do l => cstep l s
  | Give t t' b =>
      if holds s t b then Step (CState (cmem s) (chead s) (pcs s) ((t', b) :: drop t b (holders s)) (pops s)) else Disabled
  end.

(** A rule says which steps may happen in a state. Executions that keep a rule: *)
Definition rule : Type := label -> cstate -> Prop.
Definition allowed (ok : rule) (e : event) (s : cstate) : Prop := match e with Do l => ok l s | Give _ _ _ => True end.
Inductive run_with (ok : rule) : cstate -> list event -> cstate -> Prop :=
  | run_nil : forall s, run_with ok s [] s
  | run_snoc : forall s es s1 e s2,
      run_with ok s es s1 -> allowed ok e s1 -> happens e s1 = Step s2 -> run_with ok s (es ++ [e]) s2.
Definition reachable_with (ok : rule) (n : nat) (s : cstate) : Prop := exists es, run_with ok (cinit n) es s.

(** The thread is inside allocate and has loaded block [b] as the head of the list. *)
Definition refers (c : pc) (b : nat) : Prop := c = ARead (At b) \/ exists q, c = ACas (At b) q.
(** The thread is inside deallocate, has put [b] into the list and not yet linked it. *)
Definition unlinked (c : pc) (b : nat) : Prop := exists q, c = DLink b q.

(** A block is not put into the list while an allocate refers to it. *)
Definition no_reuse_rule : rule := fun l s =>
  match l with LXchg t => forall b, pcs s t = DXchg b -> forall t', ~ refers (pcs s t') b | _ => True end.
(** An allocate does not read the link of a block that is not linked yet. *)
Definition settled_read_rule : rule := fun l s =>
  match l with LRead t => forall b, pcs s t = ARead (At b) -> forall t', ~ unlinked (pcs s t') b | _ => True end.
(** Rule 1: both. *)
Definition hazard_rule : rule := fun l s => no_reuse_rule l s /\ settled_read_rule l s.

(** Rule 2: allocations one at a time, and the two accesses of a deallocate are not separated by an allocate's read. *)
Definition one_allocator_rule : rule := fun l s =>
  match l with
  | LStartAlloc _ => forall t, ~ allocating (pcs s t)
  | LRead _ => forall t b, ~ unlinked (pcs s t) b
  | _ => True
  end.

(** The thread that makes a step. *)
Definition thread_of (l : label) : nat :=
  match l with
  | LStartAlloc t | LLoad t | LRead t | LCas t _ | LStartFree t _ | LXchg t | LLink t | LWrite t _ _ => t
  end.

(** One core with interrupts: 0 is the main program and [t] > 0 a handler of priority [t]. What is interrupted continues only when
    the handlers above it are outside of the pool's functions. *)
Definition nested_rule : rule := fun l s => forall t, (thread_of l < t)%nat -> pcs s t = Idle.
(** Rule 3: on one core, handlers do not allocate. *)
Definition handlers_free_rule : rule := fun l s =>
  nested_rule l s /\ match l with LStartAlloc t => t = 0%nat | _ => True end.

(** Rule 4: calls one at a time, as with a lock or with interrupts disabled around each call. *)
Definition serial_rule : rule := fun l s =>
  match l with LStartAlloc _ | LStartFree _ _ => forall t, pcs s t = Idle | _ => True end.

(** What users of the pool rely on, in a state [s] of a pool of [n] blocks used by rule [ok]. *)
Record pool_safe (ok : rule) (n : nat) (s : cstate) : Prop := {
  (** no block has two holders, and only blocks of the pool have one *)
  safe_exclusive : NoDup (held s);
  safe_in_range : forall b, In b (held s) -> (b < n)%nat;
  (** no pointer that is not a block is followed *)
  safe_pointers : forall e, allowed ok e s -> happens e s <> Crash;
  (** a holder can write its block, and the contents of a held block change by no other event *)
  safe_write : forall t b v, pcs s t = Idle -> holds s t b = true ->
    exists s', cstep (LWrite t b v) s = Step s' /\ nth_error (cmem s') b = Some (CData v);
  safe_data : forall e s' b, allowed ok e s -> In b (held s) -> happens e s = Step s' -> (forall t v, e <> Do (LWrite t b v)) ->
    nth_error (cmem s') b = nth_error (cmem s) b;
  (** allocate returns null exactly if every block is held or is being returned and has not reached the list *)
  safe_refusal : forall t, pcs s t = ALoad ->
    exists s', cstep (LLoad t) s = Step s' /\
      (pcs s' t = Idle <-> forall b, (b < n)%nat -> In b (held s) \/ exists t', pcs s t' = DXchg b);
  (** and no other step leaves allocate without a block *)
  safe_refusal_only : forall l s', cstep l s = Step s' ->
    allocating (pcs s (thread_of l)) -> pcs s' (thread_of l) = Idle ->
    (exists b, holders s' = (thread_of l, b) :: holders s) \/
    (forall b, (b < n)%nat -> In b (held s) \/ exists t', pcs s t' = DXchg b);
  (** no block is lost: with nobody inside of deallocate and a block not held, an allocate that runs alone gets one *)
  safe_not_lost : forall t, (forall t', ~ deallocating (pcs s t')) -> pcs s t = Idle -> (length (held s) < n)%nat ->
    exists b s', crun [LStartAlloc t; LLoad t; LRead t; LCas t false] s = Step s' /\
      holders s' = (t, b) :: holders s /\ pcs s' t = Idle /\ ~ In b (held s) /\ (b < n)%nat
}.

(** The head of the list is an atomic object, but the blocks are plain memory. Thread [t] is about to access the bytes of block [b],
    by the pool's functions or as the client that holds it; [w]: to write. Clients read and write outside of the pool's functions. *)
Inductive plain_access (ok : rule) (s : cstate) : nat -> nat -> bool -> Prop :=
  | access_read : forall t b, pcs s t = ARead (At b) -> ok (LRead t) s -> plain_access ok s t b false
  | access_link : forall t b q, pcs s t = DLink b q -> ok (LLink t) s -> plain_access ok s t b true
  | access_client : forall t b w v, pcs s t = Idle -> holds s t b = true -> ok (LWrite t b v) s -> plain_access ok s t b w.
(** A data race: two threads can both make such an access next, to the same block, and one of them writes. *)
Definition data_race (ok : rule) (s : cstate) : Prop :=
  exists t t' b w, t <> t' /\ plain_access ok s t b true /\ plain_access ok s t' b w.
