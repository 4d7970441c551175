(** C167: a call of allocate ends after a bounded number of its thread's steps. *)
From Coq Require Import ZArith Bool List Arith Lia.
From Verif Require Import Outcome PoolModel PoolConcModel PoolConcSpec PoolConcProofs PoolProgressSpec PoolProgressProofs PoolWaitSpec PoolWaitProofs.
Import ListNotations.
Open Scope nat_scope.

(** The full claim is false: for every pool and every bound there is an execution of two threads in which thread 0 calls allocate once, makes more steps
    than that and is still at it, although the pool is not found empty and no compare-exchange fails without reason. *)
Theorem C167_bounded_refuted : forall n bound, 1 <= n -> exists ls s', crun ls (cinit n) = Step s' /\
  count_steps (calls_allocate 0) ls (cinit n) = 1 /\ allocating 0 s' = true /\ bound < own_steps 0 ls (cinit n) /\
  count_steps (fails_spuriously 0) ls (cinit n) = 0 /\ count_steps (finds_empty 0) ls (cinit n) = 0.
Proof.
  intros n bound Hn. pose proof (cinit_ready n Hn) as R.
  assert (E1 : crun [LStartAlloc 0] (cinit n) = Step (set_pc (cinit n) 0 ALoad)) by reflexivity.
  destruct (rounds_run (S bound) _ R) as (s' & E2 & (q' & r' & _ & _ & _ & P0 & _) & O & F & C & D).
  exists ([LStartAlloc 0] ++ rounds (S bound)), s'. rewrite (crun_app _ _ _ _ E1). unfold own_steps in *. rewrite !(count_app _ _ _ _ _ E1).
  split; [exact E2 |]. rewrite O, F, C, D. unfold allocating. rewrite P0. cbn -[Nat.mul]. repeat split; lia.
Qed.
Print Assumptions C167_bounded_refuted.

(** What holds: from the beginning of the call the thread makes at most three steps for every disturbance, and three more. Disturbances are blocks
    taken by other threads, blocks put back, and compare-exchanges that fail without reason. *)
Theorem C167_bounded_partial : forall t ls s s', pcs s t = ALoad -> count_steps (calls_allocate t) ls s = 0 -> crun ls s = Step s' ->
  own_steps t ls s <= 3 * disturbances t ls s + (if allocating t s' then 2 else 3).
Proof. exact call_bounded. Qed.
Print Assumptions C167_bounded_partial.
Example C167_bounded_case : let s := set_pc (cinit 3) 0 ALoad in
  let ls := [LLoad 0; LRead 0; LStartAlloc 1; LLoad 1; LRead 1; LCas 1 false; LCas 0 false; LLoad 0; LRead 0; LCas 0 true; LLoad 0; LRead 0; LCas 0 false] in
  pcs s 0 = ALoad /\ count_steps (calls_allocate 0) ls s = 0 /\ (exists s', crun ls s = Step s' /\ allocating 0 s' = false) /\
  own_steps 0 ls s = 9 /\ disturbances 0 ls s = 2.
Proof. cbv zeta. repeat match goal with |- _ /\ _ => split end; try (vm_compute; reflexivity). eexists. split; [vm_compute; reflexivity | reflexivity]. Qed.

(** And no smaller number will do: for every pool of at least two blocks and every number of disturbances there is a call, in an execution that
    begins with a new pool, that needs that many steps, though all its compare-exchanges that fail have a reason. *)
Theorem C167_bound_reached : forall n d, 2 <= n -> exists ls s' b, crun (LStartAlloc 0 :: ls) (cinit n) = Step s' /\
  let s := set_pc (cinit n) 0 ALoad in
  count_steps (calls_allocate 0) ls s = 0 /\ count_steps (fails_spuriously 0) ls s = 0 /\
  disturbances 0 ls s = d /\ own_steps 0 ls s = 3 * d + 3 /\ pcs s' 0 = Idle /\ In (0, b) (holders s').
Proof.
  intros n d Hn. destruct (cinit_two n Hn) as (q & r & E). rewrite E.
  assert (A : arena true (set_pc (CState (CNext (At 1) :: CNext q :: r) (At 0) (fun _ => Idle) [] 0) 0 ALoad)) by (exists q, r; cbn; repeat split).
  destruct (duel_runs d true _ A) as (s' & b & E2 & P & H & O & D & C & F). exists (duel d true), s', b. split; [exact E2 |]. cbv zeta. auto 10.
Qed.
Print Assumptions C167_bound_reached.

(** Without disturbances a call is over after at most three steps, whatever the other threads are doing. *)
Theorem C167_undisturbed : forall t ls s s', pcs s t = ALoad -> count_steps (calls_allocate t) ls s = 0 -> crun ls s = Step s' ->
  disturbances t ls s = 0 -> own_steps t ls s <= 3 /\ (own_steps t ls s = 3 -> allocating t s' = false).
Proof.
  intros t ls s s' A C E D. pose proof (call_bounded t ls s s' A C E) as B. rewrite D in B.
  destruct (allocating t s'); split; intros; try reflexivity; lia.
Qed.
Print Assumptions C167_undisturbed.
Example C167_undisturbed_case : let s := set_pc (cinit 2) 0 ALoad in let ls := [LLoad 0; LStartAlloc 1; LLoad 1; LRead 0; LRead 1; LCas 0 false; LCas 1 false] in
  pcs s 0 = ALoad /\ count_steps (calls_allocate 0) ls s = 0 /\ disturbances 0 ls s = 0 /\ own_steps 0 ls s = 3 /\
  exists s', crun ls s = Step s' /\ holders s' = [(0, 0)] /\ allocating 1 s' = true.
Proof. cbv zeta. repeat match goal with |- _ /\ _ => split end; try (vm_compute; reflexivity). eexists. split; [vm_compute; reflexivity |]. vm_compute. auto. Qed.
