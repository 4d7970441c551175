(** Specification vocabulary for threads that share interface groups (C152). *)
From Coq Require Import ZArith Bool String List.
From Verif Require Import Outcome ResultModel CanFrameModel SocketCanModel GroupModel ManagerModel ManagerSpec OomModel OwnerModel LifeModel.
Import ListNotations.
Open Scope Z_scope.

(** Pointers are variables of type std::shared_ptr: no thread may store into one that another thread is using or storing into (a data
    race). What uses a pointer: a call through it until it returns, copying it until the copy is counted, and startInterfaceGroup from the time it
    has stored the new group until it returns. What stores: the step that stores. *)
Definition stores (k : task) (v : nat) : Prop := match k with Storing w _ _ => w = v | _ => False end.
Definition uses (k : task) (v : nat) : Prop :=
  match k with
  | Calling w _ _ => w = v
  | Retaining _ w _ => w = v
  | Releasing _ (Some w) | Closing _ _ (Some w) | Checking w => w = v
  | _ => False
  end.
Definition meddling (s : life) : Prop :=
  exists t u k j v, t <> u /\ nth_error (l_doing s) t = Some k /\ nth_error (l_doing s) u = Some j /\ stores k v /\ (uses j v \/ stores j v).

(** Operations within the contract: pointers exist, a pointer called through is not null, the filter array is readable. The
    kernel gives one start no descriptor twice while it is open; descriptors of others are excluded by [go]. *)
Definition allowed (o : op) (s : life) : Prop :=
  match o with
  | Call v _ => exists i, nth_error (l_vars s) v = Some (Some i)
  | Start v _ _ configs num kernel _ => (v < length (l_vars s))%nat /\ configs_ok configs num /\ fresh_descriptors [] kernel
  | Copy dst src => (dst < length (l_vars s))%nat /\ (src < length (l_vars s))%nat
  | Drop v => (v < length (l_vars s))%nat
  end.
Definition allowed_act (a : act) (s : life) : Prop := match a with Begin _ o => allowed o s | Go _ => True end.

(** The executions of a program, all of whose states but perhaps the last obey a rule. *)
Inductive lives (rule : life -> Prop) (live : list Z) (vars threads : nat) : life -> Prop :=
| lives_begin : lives rule live vars threads (life_start live vars threads)
| lives_step : forall s a s', lives rule live vars threads s -> rule s -> allowed_act a s -> life_step a s = Some (Ret s') ->
    lives rule live vars threads s'.
Definition anyhow (_ : life) : Prop := True.
Definition considerate (s : life) : Prop := ~ meddling s.

(** The descriptor that a thread's next step uses or closes. *)
Definition acts_on (k : task) : option Z :=
  match k with
  | Calling _ _ (d :: _) => Some d
  | Starting _ _ (Closed d :: _) _ => Some d
  | Closing _ (d :: _) _ => Some d
  | _ => None
  end.

(** The group with number [i]; its descriptors. *)
Definition group_at (s : life) (i : nat) : group := match nth_error (l_heap s) i with Some (Cell g _) => g | None => [] end.

(** The number of pointers to group [i]. *)
Definition pointers_to (s : life) (i : nat) : nat :=
  length (List.filter (fun p => match p with Some j => (j =? i)%nat | None => false end) (l_vars s)).

(** Steps from a state that end with something undefined. *)
Fixpoint goes_wrong (h : list act) (s : life) : Prop :=
  match h with
  | [] => False
  | a :: h => allowed_act a s /\ match life_step a s with Some UB => True | Some (Ret s') => goes_wrong h s' | None => False end
  end.

(** A thread makes an operation, from beginning to end, while the others do nothing. *)
Inductive goes_on (t : nat) : life -> life -> Prop :=
| goes_end : forall s, nth_error (l_doing s) t = Some Idle -> goes_on t s s
| goes_step : forall s s1 s2, life_step (Go t) s = Some (Ret s1) -> goes_on t s1 s2 -> goes_on t s s2.
Definition makes (t : nat) (o : op) (s s' : life) : Prop := exists s1, life_step (Begin t o) s = Some (Ret s1) /\ goes_on t s1 s'.

(** No thread is in the middle of something. *)
Definition at_rest (s : life) : Prop := Forall (eq Idle) (l_doing s).

(** The sockets of the groups that exist. *)
Definition held_by_groups (s : life) : list Z :=
  flat_map (fun c => match c with Cell _ O => [] | Cell g _ => map getSocketDescriptor g end) (l_heap s).

(** The sockets of starts that have not ended, and those that have still to be closed with their group. *)
Definition held_by_tasks (s : life) : list Z :=
  flat_map (fun k => match k with
                     | Starting _ past _ _ => match replay [] past with Some ds => ds | None => [] end
                     | Closing _ ds _ => ds
                     | _ => []
                     end) (l_doing s).

(** The operation of LifeModel.v for one of OwnerModel.v; the kernel of the latter sees all there was before. *)
Definition as_op (fuel : nat) (u : use) (past : list event) : option op :=
  match u with
  | UStart v m configs n kernel mem => Some (Start v fuel m configs n (fun t tr => kernel t (past ++ tr)) mem)
  | UStop v | UDrop v => Some (Drop v)
  | UCopy dst src => Some (Copy dst src)
  | _ => None
  end.

(** An execution without end. *)
Definition endless (s : nat -> life) (a : nat -> act) : Prop := forall n, life_step (a n) (s n) = Some (Ret (s (S n))).

(** What the next step of a thread is, if it waits for anything: a socket whose descriptor the kernel would have to hand out twice. *)
Definition awaits (k : task) : option Z := match k with Starting _ _ (Opened d :: _) _ => Some d | _ => None end.
