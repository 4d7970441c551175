(** C137: the memory pool is lock-free. *)
From Coq Require Import ZArith Bool List Arith Lia.
From Verif Require Import Outcome PoolModel PoolConcModel PoolConcSpec PoolProgressSpec PoolProgressProofs.
Import ListNotations.
Open Scope nat_scope.

(** C137. In every schedule, disciplined or not, in which no wild pointer is followed (C50): a thread that is outside the pool when it begins makes at most three steps in
    allocate for each time that any thread took a block or put one back, that this thread found the pool empty or that its
    compare-exchange failed spuriously, and two more. *)
Theorem C137_allocate_steps_bounded : forall t ls s s', (pcs s t = Idle \/ pcs s t = ALoad) -> crun ls s = Step s' ->
  count_steps (allocate_step t) ls s <=
  3 * (count_steps takes ls s + count_steps puts ls s + count_steps (finds_empty t) ls s + count_steps (fails_spuriously t) ls s) + 2.
Proof. exact allocate_bounded. Qed.
Print Assumptions C137_allocate_steps_bounded.

(** Hence threads cannot keep each other from proceeding: whatever the state and the schedule, when [n] threads have made more
    than [5 * n] steps in allocate, a block was taken or put back, or one of them found the pool empty, or the machine failed a
    compare-exchange for no reason. *)
Theorem C137_someone_succeeds : forall ts ls s s', crun ls s = Step s' ->
  5 * length ts < count_steps (by_any ts allocate_step) ls s ->
  0 < count_steps takes ls s + count_steps puts ls s + count_steps (by_any ts finds_empty) ls s + count_steps (by_any ts fails_spuriously) ls s.
Proof. exact someone_succeeds. Qed.
Print Assumptions C137_someone_succeeds.

(** And a call is over as soon as it took a block or found the pool empty: each call of allocate has exactly one of these
    outcomes, unless it has not returned yet. *)
Theorem C137_one_outcome_per_call : forall t ls s s', pcs s t = Idle -> crun ls s = Step s' ->
  count_steps (takes_one t) ls s + count_steps (finds_empty t) ls s + (if allocating t s' then 1 else 0) = count_steps (calls_allocate t) ls s.
Proof. exact allocate_ends_once. Qed.
Print Assumptions C137_one_outcome_per_call.

(** deallocate does not loop: two steps per call, whatever the other threads do. *)
Theorem C137_deallocate_two_steps : forall t ls s s', pcs s t = Idle -> crun ls s = Step s' ->
  count_steps (deallocate_step t) ls s <= 2 * count_steps (calls_deallocate t) ls s.
Proof. exact deallocate_bounded. Qed.
Print Assumptions C137_deallocate_two_steps.

(** Thread 0 loses a race against thread 1, which takes a block, fails spuriously once and takes the next one: nine steps, with
    one block taken by the other, one by itself and one spurious failure. Then thread 1 returns its block. *)
Definition ex_race : list label :=
  [LStartAlloc 0; LLoad 0; LRead 0; LStartAlloc 1; LLoad 1; LRead 1; LCas 1 false; LCas 0 false;
   LLoad 0; LRead 0; LCas 0 true; LLoad 0; LRead 0; LCas 0 false; LStartFree 1 0; LXchg 1; LLink 1].
Example C137_case : match crun ex_race (cinit 3) with
  | Step s => holders s = [(0, 1)] /\ pcs s 0 = Idle /\ pcs s 1 = Idle
  | _ => False
  end /\
  count_steps (allocate_step 0) ex_race (cinit 3) = 9 /\ count_steps takes ex_race (cinit 3) = 2 /\ count_steps puts ex_race (cinit 3) = 1 /\
  count_steps (fails_spuriously 0) ex_race (cinit 3) = 1 /\ count_steps (deallocate_step 1) ex_race (cinit 3) = 2 /\
  count_steps (takes_one 0) ex_race (cinit 3) = 1 /\ count_steps (calls_allocate 0) ex_race (cinit 3) = 1 /\
  5 * length [0] < count_steps (by_any [0] allocate_step) ex_race (cinit 3).
Proof. vm_compute. repeat split; lia. Qed.
