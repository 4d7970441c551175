(** Proofs about the length of calls of allocate. *)
From Coq Require Import ZArith Bool List Arith Lia.
From Verif Require Import Outcome CanFrameModel PoolModel PoolConcModel PoolConcSpec PoolConcProofs PoolProgressSpec PoolProgressProofs PoolWaitSpec.
Import ListNotations.
Open Scope nat_scope.

Lemma takes_split t : forall ls s, count_steps takes ls s = count_steps (takes_one t) ls s + count_steps (taken_by_other t) ls s.
Proof.
  induction ls as [| l ls IH]; intros s; cbn [count_steps]; [reflexivity |]. unfold takes_one, taken_by_other at 1.
  assert (E : match cstep l s with Step s' => count_steps takes ls s' | _ => 0 end =
    match cstep l s with Step s' => count_steps (takes_one t) ls s' | _ => 0 end + match cstep l s with Step s' => count_steps (taken_by_other t) ls s' | _ => 0 end).
  { destruct (cstep l s); auto. }
  unfold takes_one in E. rewrite E. destruct (allocate_step t l s), (takes l s); cbn [andb negb]; lia.
Qed.

Lemma call_bounded t ls s s' : pcs s t = ALoad -> count_steps (calls_allocate t) ls s = 0 -> crun ls s = Step s' ->
  own_steps t ls s <= 3 * disturbances t ls s + (if allocating t s' then 2 else 3).
Proof.
  intros A C E. unfold own_steps, disturbances.
  assert (P : paid t 0 0 s) by (unfold paid; rewrite A; lia). pose proof (run_paid _ _ _ _ _ _ P E) as B.
  assert (K : calling t 0 1 s) by (unfold calling, allocating; rewrite A; reflexivity). pose proof (run_calling _ _ _ _ _ _ K E) as D.
  unfold calling in D. cbn [Nat.add] in *. rewrite C in D. rewrite (takes_split t ls s) in B.
  unfold paid in B. destruct (allocating t s') eqn:Al; cbn [b2n] in D.
  - assert (count_steps (takes_one t) ls s = 0) by lia. assert (count_steps (finds_empty t) ls s = 0) by lia.
    destruct (pcs s' t); lia.
  - unfold allocating in Al. destruct (pcs s' t); try discriminate; lia.
Qed.

(** ** Counting over parts *)
Lemma crun_app : forall l1 l2 s s1, crun l1 s = Step s1 -> crun (l1 ++ l2) s = crun l2 s1.
Proof.
  induction l1 as [| l l1 IH]; intros l2 s s1 E; cbn [crun app] in *; [congruence |]. destruct (cstep l s); try discriminate. apply IH, E.
Qed.
Lemma count_app p : forall l1 l2 s s1, crun l1 s = Step s1 -> count_steps p (l1 ++ l2) s = count_steps p l1 s + count_steps p l2 s1.
Proof.
  induction l1 as [| l l1 IH]; intros l2 s s1 E; cbn [crun app count_steps] in *; [injection E as <-; reflexivity |].
  destruct (cstep l s); try discriminate. rewrite (IH _ _ _ E). lia.
Qed.

(** ** One round that thread 0 loses: thread 1 takes a block and puts it back *)
Definition lost_round : list label :=
  [LLoad 0; LRead 0; LStartAlloc 1; LLoad 1; LRead 1; LCas 1 false; LCas 0 false; LStartFree 1 0; LXchg 1; LLink 1].
Fixpoint rounds (k : nat) : list label := match k with O => [] | S k => lost_round ++ rounds k end.

Definition ready (s : cstate) : Prop := exists q r, ptr_eqb q (At 0) = false /\ cmem s = CNext q :: r /\ chead s = At 0 /\ pcs s 0 = ALoad /\ pcs s 1 = Idle /\ holders s = [].

Lemma lost_round_runs s : ready s -> exists s', crun lost_round s = Step s' /\ ready s' /\
  own_steps 0 lost_round s = 3 /\ count_steps (fails_spuriously 0) lost_round s = 0 /\ count_steps (calls_allocate 0) lost_round s = 0 /\
  count_steps (finds_empty 0) lost_round s = 0.
Proof.
  intros (q & r & N & M & H & P0 & P1 & Ho). destruct s as [m h f ho k]. cbn [cmem chead pcs holders] in *. subst m h ho.
  unfold lost_round, own_steps. cbn [crun count_steps cstep pcs chead cmem]. repeat (progress (rewrite ?P0, ?P1, ?N; cbn -[ptr_eqb]; change (ptr_eqb (At 0) (At 0)) with true)).
  eexists. split; [reflexivity |]. split; [| repeat split].
  exists q, r. cbn -[ptr_eqb]. repeat split. exact N.
Qed.

Lemma rounds_run k : forall s, ready s -> exists s', crun (rounds k) s = Step s' /\ ready s' /\
  own_steps 0 (rounds k) s = 3 * k /\ count_steps (fails_spuriously 0) (rounds k) s = 0 /\ count_steps (calls_allocate 0) (rounds k) s = 0 /\
  count_steps (finds_empty 0) (rounds k) s = 0.
Proof.
  induction k as [| k IH]; intros s R; cbn [rounds].
  - exists s. split; [reflexivity |]. split; [exact R |]. repeat split.
  - destruct (lost_round_runs s R) as (s1 & E & R1 & A & B & C & D). destruct (IH s1 R1) as (s2 & E2 & R2 & A2 & B2 & C2 & D2).
    exists s2. rewrite (crun_app _ _ _ _ E). split; [exact E2 |]. split; [exact R2 |].
    unfold own_steps in *. rewrite !(count_app _ _ _ _ _ E). rewrite A, B, C, D, A2, B2, C2, D2. repeat split. lia.
Qed.

(** ** Rounds that cost one disturbance each *)
Definition lost_to_take : list label := [LLoad 0; LRead 0; LStartAlloc 1; LLoad 1; LRead 1; LCas 1 false; LCas 0 false].
Definition lost_to_put : list label := [LLoad 0; LRead 0; LStartFree 1 0; LXchg 1; LCas 0 false; LLink 1].
Fixpoint duel (k : nat) (full : bool) : list label :=
  match k with O => [LLoad 0; LRead 0; LCas 0 false] | S k => (if full then lost_to_take else lost_to_put) ++ duel k (negb full) end.

Definition arena (full : bool) (s : cstate) : Prop := exists q r, cmem s = CNext (At 1) :: CNext q :: r /\
  chead s = (if full then At 0 else At 1) /\ pcs s 0 = ALoad /\ pcs s 1 = Idle /\ holders s = if full then [] else [(1, 0)].

Lemma duel_round full s : arena full s -> exists s', crun (if full then lost_to_take else lost_to_put) s = Step s' /\ arena (negb full) s' /\
  own_steps 0 (if full then lost_to_take else lost_to_put) s = 3 /\
  disturbances 0 (if full then lost_to_take else lost_to_put) s = 1 /\
  count_steps (calls_allocate 0) (if full then lost_to_take else lost_to_put) s = 0 /\
  count_steps (fails_spuriously 0) (if full then lost_to_take else lost_to_put) s = 0.
Proof.
  intros (q & r & M & H & P0 & P1 & Ho). destruct s as [m h f ho k]. cbn [cmem chead pcs holders] in *. subst m h ho.
  destruct full; unfold lost_to_take, lost_to_put, own_steps, disturbances;
    cbn [crun count_steps cstep pcs chead cmem]; unfold taken_by_other, takes; cbn [cstep pcs chead cmem];
    repeat (progress (rewrite ?P0, ?P1; cbn -[Nat.ltb]; rewrite ?Nat.ltb_irrefl)).
  - replace (k <? S k) with true by (symmetry; apply Nat.ltb_lt; lia). repeat (progress (rewrite ?P0, ?P1; cbn -[Nat.ltb]; rewrite ?Nat.ltb_irrefl)).
    eexists. split; [reflexivity |]. split; [| repeat split]. exists q, r. cbn. repeat split.
  - change (0 <? S (S (length r))) with true. cbn -[Nat.ltb]. rewrite ?Nat.ltb_irrefl.
    eexists. split; [reflexivity |]. split; [| repeat split]. exists q, r. cbn. repeat split.
Qed.

Lemma duel_runs k : forall full s, arena full s -> exists s' b, crun (duel k full) s = Step s' /\ pcs s' 0 = Idle /\ In (0, b) (holders s') /\
  own_steps 0 (duel k full) s = 3 * k + 3 /\ disturbances 0 (duel k full) s = k /\ count_steps (calls_allocate 0) (duel k full) s = 0 /\
  count_steps (fails_spuriously 0) (duel k full) s = 0.
Proof.
  induction k as [| k IH]; intros full s A; cbn [duel].
  - destruct A as (q & r & M & H & P0 & P1 & Ho). destruct s as [m h f ho c]. cbn [cmem chead pcs holders] in *. subst m h ho.
    unfold own_steps, disturbances. cbn [crun count_steps cstep pcs chead cmem]. unfold taken_by_other, takes. cbn [cstep pcs chead cmem]. rewrite P0.
    destruct full; cbn -[Nat.ltb]; rewrite ?Nat.ltb_irrefl; replace (c <? S c) with true by (symmetry; apply Nat.ltb_lt; lia); cbn -[Nat.ltb];
      eexists; eexists; (split; [reflexivity |]); cbn -[Nat.ltb]; repeat split; left; reflexivity.
  - destruct (duel_round full s A) as (s1 & E & A1 & O & D & C & F). destruct (IH (negb full) s1 A1) as (s2 & b & E2 & P2 & H2 & O2 & D2 & C2 & F2).
    exists s2, b. rewrite (crun_app _ _ _ _ E). split; [exact E2 |]. split; [exact P2 |]. split; [exact H2 |].
    unfold own_steps, disturbances in *. rewrite !(count_app _ _ _ _ _ E). repeat split; lia.
Qed.

Lemma cinit_ready n : 1 <= n -> ready (set_pc (cinit n) 0 ALoad).
Proof.
  intros Hn. destruct n as [| [| n]]; [lia | exists Null, []; repeat split |].
  destruct (cinit_two (S (S n))) as (q & r & E); [lia |]. rewrite E. exists (At 1), (CNext q :: r). repeat split.
Qed.
