(** C142: used by several threads, the pool behaves as one stack of blocks (linearizability). *)
From Coq Require Import ZArith Bool List Arith Lia.
From Verif Require Import Outcome PoolModel PoolConcModel PoolConcSpec PoolConcProofs PoolUseSpec PoolUseProofs PoolFreshSpec PoolFreshProofs PoolLinSpec PoolLinProofs
  Props_Pool Props_PoolUse.
Import ListNotations.
Open Scope nat_scope.

(** C142. Full claim: [forall n es s, 0 < n -> run_with (fun _ _ => True) (cinit n) es s -> linearizable n (history_of es (cinit n))].
    It is false: in the first schedule of C50 two calls are answered with block 1, which nobody has returned. *)
Theorem C142_linearizable_refuted : forall n, 2 <= n -> exists s, run_with (fun _ _ => True) (cinit n) (map Do aba_schedule) s /\
  ~ linearizable n (history_of (map Do aba_schedule) (cinit n)).
Proof.
  intros n Hn. destruct (proj1 C112_both_needed n Hn) as (s & R & _). exists s.
  split; [eapply run_impl; [|exact R]; intros; exact Logic.I|].
  intro L. pose proof (linearizable_balance n _ 1 L) as B. destruct (cinit_two n Hn) as (q & r & Ei).
  assert (E : hits 1 (history_of (map Do aba_schedule) (cinit n)) = 2) by (rewrite Ei; vm_compute; reflexivity).
  assert (F : frees 1 (history_of (map Do aba_schedule) (cinit n)) = 0) by (rewrite Ei; vm_compute; reflexivity).
  rewrite E, F in B. lia.
Qed.
Print Assumptions C142_linearizable_refuted.
(** It holds for all executions without stale exchanges (C147), in particular for the uses that C112-C116 found safe: calls take effect one after the other, each between its start and its return,
    and answer what a stack answers. *)
Theorem C142_linearizable_partial : forall n es s, 0 < n ->
  run_with fresh_rule (cinit n) es s \/
  run_with hazard_rule (cinit n) es s \/ run_with one_allocator_rule (cinit n) es s \/ run_with handlers_free_rule (cinit n) es s \/
  run_with phase_ok (cinit n) es s \/ run_with serial_rule (cinit n) es s ->
  linearizable n (history_of es (cinit n)).
Proof.
  intros n es s Hn H. destruct H as [R|H]; [exact (fresh_linearizable n es s Hn R)|]. apply (hazard_linearizable n es s Hn).
  destruct H as [R|[R|[R|[R|R]]]].
  - exact R.
  - apply (one_run n es s Hn R).
  - apply (one_run n es s Hn). now apply (irq_run n es s Hn).
  - apply (phase_run n es s R).
  - apply (phase_run n es s). eapply run_impl; [apply serial_phase|exact R].
Qed.
Print Assumptions C142_linearizable_partial.
(** In a linearizable history no block is handed out twice without a call that returns it in between. *)
Theorem C142_balance : forall n h b, linearizable n h ->
  length (List.filter (fun x => match x with Return _ (Got b') => b' =? b | _ => false end) h) <=
  1 + length (List.filter (fun x => match x with Call _ (Deallocate b') => b' =? b | _ => false end) h).
Proof. exact linearizable_balance. Qed.
Print Assumptions C142_balance.
(** For one thread, that makes its calls one after the other, it means exactly that the answers are those of a stack. *)
Theorem C142_one_thread : forall n t cs,
  linearizable n (flat_map (fun x => [Call t (fst x); Return t (snd x)]) cs) <-> stack_run (seq 0 n) cs <> None.
Proof. exact one_thread. Qed.
Print Assumptions C142_one_thread.
(** Thread 0's allocation overlaps two others and a deallocation. *)
Example C142_case : history_of hazard_case (cinit 3) =
  [Call 1 Allocate; Return 1 (Got 0); Call 0 Allocate; Call 1 Allocate; Call 2 (Deallocate 0); Return 2 Done; Return 0 (Got 0);
   Return 1 (Got 1)].
Proof. vm_compute. reflexivity. Qed.
Example C142_case_linearizable : linearizable 3 (history_of hazard_case (cinit 3)).
Proof. destruct C112_case as (s & R & _). apply (C142_linearizable_partial 3 hazard_case s); [lia|right; now left]. Qed.
(** A block is handed out twice. *)
Example C142_not_linearizable : ~ linearizable 2 [Call 0 Allocate; Return 0 (Got 0); Call 0 Allocate; Return 0 (Got 0)].
Proof. intro L. pose proof (linearizable_balance 2 _ 0 L) as B. vm_compute in B. lia. Qed.
Example C142_one_thread_case : linearizable 2 (flat_map (fun x => [Call 0 (fst x); Return 0 (snd x)])
  [(Allocate, Got 0); (Allocate, Got 1); (Allocate, GotNull); (Deallocate 0, Done); (Deallocate 1, Done); (Allocate, Got 1)]).
Proof. apply C142_one_thread. discriminate. Qed.
Example C142_one_thread_not : ~ linearizable 2 (flat_map (fun x => [Call 0 (fst x); Return 0 (snd x)])
  [(Allocate, Got 0); (Allocate, Got 1); (Deallocate 0, Done); (Deallocate 1, Done); (Allocate, Got 0)]).
Proof. intro L. apply C142_one_thread in L. now apply L. Qed.
