(** Executions with store buffers, for C165. *)
From Coq Require Import ZArith Bool List Arith.
From Verif Require Import Outcome PoolModel PoolConcModel PoolConcSpec PoolUseSpec PoolFreshSpec PoolTsoModel.
From Verif Require PoolLinSpec.
Import ListNotations.
Open Scope nat_scope.

(** Stores leave in order, as on x86. *)
Definition in_order (es : list tevent) : Prop := forall t k, In (TFlush t k) es -> k = 0.

(** Executions whose steps keep a rule. *)
Definition trule : Type := label -> tstate -> Prop.
Definition tallowed (ok : trule) (e : tevent) (s : tstate) : Prop := match e with TDo (Do l) => ok l s | _ => True end.
Inductive trun (ok : trule) (n : nat) : list tevent -> tstate -> Prop :=
  | trun_nil : trun ok n [] (tinit n)
  | trun_snoc : forall es s e s', trun ok n es s -> tallowed ok e s -> tstep e s = TStep s' -> trun ok n (es ++ [e]) s'.

(** The events without those of the buffers. *)
Definition program (es : list tevent) : list event := flat_map (fun e => match e with TDo e => [e] | TFlush _ _ => [] end) es.

(** A rule that does not look at buffers. *)
Definition plainly (ok : rule) : trule := fun l s => ok l (base s).

(** No allocate reads a link, or takes a block, while a store of another thread to that block has not reached memory. *)
Definition nothing_pending (s : tstate) (t b : nat) : Prop := forall t', t' <> t -> pending (buffers s t') b = None.
Definition visible_rule : trule := fun l s =>
  match l with
  | LRead t => forall b, pcs (base s) t = ARead (At b) -> nothing_pending s t b
  | LCas t false => forall b q, takes (base s) t b q -> nothing_pending s t b
  | _ => True
  end.

(** Calls may overlap, but none takes a block with an outdated link (C147), nor reads or takes one that a store is on the way to. *)
Definition fresh_visible_rule : trule := fun l s => fresh_rule l (base s) /\ visible_rule l s.

(** Calls one at a time, as with a lock: a call begins when no other is in progress and the links that other threads stored have reached
    memory. (A lock's release waits for them.) *)
Definition links_visible (s : tstate) (t : nat) : Prop := forall t' b q, t' <> t -> ~ In (b, CNext q) (buffers s t').
Definition locked_rule : trule := fun l s =>
  serial_rule l (base s) /\
  match l with LStartAlloc t | LStartFree t _ => links_visible s t | _ => True end.

(** To its users a state is like the state [c] of a machine without buffers: threads are at the same places and hold the same blocks, the list
    is the same, and everyone reads the same from the blocks they hold. *)
Record like (s : tstate) (c : cstate) : Prop := {
  like_pcs : forall t, pcs (base s) t = pcs c t;
  like_head : chead (base s) = chead c;
  like_holders : holders (base s) = holders c;
  like_blocks : forall t b, holds c t b = true -> sees s t b = nth_error (cmem c) b
}.

(** What users of the pool rely on, beside what [like] carries over from the machine without buffers. *)
Record tsafe (ok : trule) (s : tstate) : Prop := {
  (** no block has two holders *)
  tsafe_exclusive : NoDup (held (base s));
  (** no pointer that is not a block is followed *)
  tsafe_pointers : forall e, tallowed ok e s -> tstep e s <> TCrash;
  (** a holder reads the same from its block until it writes to it *)
  tsafe_contents : forall e s' t b, tallowed ok e s -> tstep e s = TStep s' -> holds (base s) t b = true -> holds (base s') t b = true ->
    (forall v, e <> TDo (Do (LWrite t b v))) -> sees s' t b = sees s t b;
  (** and reads what it wrote *)
  tsafe_write : forall t b v s', tstep (TDo (Do (LWrite t b v))) s = TStep s' -> sees s' t b = Some (CData v)
}.

(** The calls and answers that clients see (as in C142). *)
Fixpoint thistory (es : list tevent) (s : tstate) : list PoolLinSpec.action :=
  match es with
  | [] => []
  | e :: rest =>
      match tstep e s with
      | TStep s' => match e with TDo e => PoolLinSpec.sees e (base s) (base s') | TFlush _ _ => [] end ++ thistory rest s'
      | _ => []
      end
  end.
