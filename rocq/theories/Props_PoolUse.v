(** C112-C116: which uses of the pool by several threads or by interrupt handlers are safe. The steps are those of [PoolConcModel]. *)
From Coq Require Import ZArith Bool List Arith Lia.
From Verif Require Import Outcome PoolModel PoolConcModel PoolConcSpec PoolConcProofs PoolUseSpec PoolUseProofs Props_Pool.
Import ListNotations.
Open Scope Z_scope.

Ltac run_case k ok okb proof es n :=
  let C := fresh "C" in
  match goal with |- exists s, _ /\ @?Q s =>
    assert (C : match ewith (okb k) es (cinit n) with Step s => Q s | _ => False end) by (vm_compute; repeat split; auto);
    let r := fresh "r" in let E := fresh "E" in
    destruct (ewith (okb k) es (cinit n)) as [| |r] eqn:E; try contradiction;
    exists r; split; [|exact C];
    exact (proj1 (ewith_run ok (okb k) k (proof k) es (cinit n) r (cinit_idle n k) eq_refl E))
  end.

(** The same for any number of blocks, [init] says how the first of them are linked. *)
Ltac run_from init k ok okb proof es n :=
  let q := fresh "q" in let m := fresh "m" in let Ei := fresh "Ei" in let C := fresh "C" in
  destruct (init : exists q m, cinit n = _) as (q & m & Ei);
  match goal with |- exists s, _ /\ @?Q s =>
    assert (C : match ewith (okb k) es (cinit n) with Step s => Q s | _ => False end)
      by (rewrite Ei; vm_compute; repeat split; auto);
    let r := fresh "r" in let E := fresh "E" in
    destruct (ewith (okb k) es (cinit n)) as [| |r] eqn:E; try contradiction;
    exists r; split; [|exact C];
    exact (proj1 (ewith_run ok (okb k) k (proof k) es (cinit n) r (cinit_idle n k) eq_refl E))
  end.

(** C112. It is enough that no block is put into the list while an allocate refers to it, and that no allocate reads the link of a
    block that is not linked yet. *)
Theorem C112_enough : forall n s, (0 < n)%nat -> reachable_with hazard_rule n s -> pool_safe hazard_rule n s.
Proof. exact hazard_safe. Qed.
Print Assumptions C112_enough.
(** Neither half can be left out: with the second only, a block gets two holders; with the first only, client data is followed as a
    pointer. *)
Theorem C112_both_needed :
  (forall n, (2 <= n)%nat ->
     exists s, run_with settled_read_rule (cinit n) (map Do aba_schedule) s /\ holders s = [(0, 1); (0, 0); (1, 1)]%nat) /\
  (forall n v, (1 <= n)%nat -> exists s, run_with no_reuse_rule (cinit n) (map Do (unlinked_schedule v)) s /\
     no_reuse_rule (LRead 0) s /\ cstep (LRead 0) s = Crash).
Proof.
  split.
  - intros n Hn. run_from (cinit_two n Hn) 2%nat settled_read_rule settledb settledb_ok (map Do aba_schedule) n.
  - intros n v Hn. run_from (cinit_one n Hn) 2%nat no_reuse_rule no_reuseb no_reuseb_ok (map Do (unlinked_schedule v)) n.
Qed.
Print Assumptions C112_both_needed.
(** The phases of C51 are a special case, with blocks passed between threads added. *)
Theorem C112_phases : forall n s, (0 < n)%nat -> reachable_with phase_ok n s -> pool_safe phase_ok n s.
Proof. exact phase_safe. Qed.
Print Assumptions C112_phases.
(** Two allocations and two deallocations overlap: thread 1 returns block 0 while thread 0 has loaded block 1, which makes its
    compare-exchange fail; then it gets block 0. Thread 2 returns a block that thread 1 has allocated. *)
Definition hazard_case : list event :=
  [ Do (LStartAlloc 1); Do (LLoad 1); Do (LRead 1); Do (LCas 1 false); Give 1 2 0;
    Do (LStartAlloc 0); Do (LLoad 0); Do (LStartAlloc 1); Do (LRead 0); Do (LLoad 1);
    Do (LStartFree 2 0); Do (LXchg 2); Do (LRead 1); Do (LCas 0 false); Do (LLink 2);
    Do (LLoad 0); Do (LRead 0); Do (LCas 0 false); Do (LCas 1 false) ].
Definition hazardb (k : nat) (l : label) (s : cstate) : bool := no_reuseb k l s && settledb k l s.
Lemma hazardb_ok : forall k l s, idle_from k s -> hazardb k l s = true -> hazard_rule l s.
Proof. intros k l s I H. apply andb_true_iff in H. split; [eapply no_reuseb_ok|eapply settledb_ok]; eauto; apply H. Qed.
Example C112_case : exists s, run_with hazard_rule (cinit 3) hazard_case s /\
  held s = [1; 0]%nat /\ holds s 0 0 = true /\ holds s 1 1 = true /\ pcs s 0%nat = Idle /\ pcs s 1%nat = Idle /\ chead s = At 2.
Proof. run_case 3%nat hazard_rule hazardb hazardb_ok hazard_case 3%nat. Qed.

(** C113. Allocations one at a time, deallocations anywhere: safe if no allocate reads while some deallocate is between its
    exchange and its link. *)
Theorem C113_one_allocator : forall n s, (0 < n)%nat -> reachable_with one_allocator_rule n s -> pool_safe one_allocator_rule n s.
Proof. exact one_safe. Qed.
Print Assumptions C113_one_allocator.
(** Without the second condition it is not: thread 0 is the only one that allocates, thread 1 only deallocates. *)
Definition one_allocator_schedule (v : Z) : list event :=
  [ Do (LStartAlloc 0); Do (LLoad 0); Do (LRead 0); Do (LCas 0 false); Do (LWrite 0 0 v); Give 0 1 0;
    Do (LStartFree 1 0); Do (LXchg 1);
    Do (LStartAlloc 0); Do (LLoad 0); Do (LRead 0); Do (LCas 0 false); Do (LStartAlloc 0); Do (LLoad 0) ].
Theorem C113_second_condition_needed : forall v, exists s,
  run_with (fun l s => match l with LStartAlloc t => t = 0%nat | _ => True end) (cinit 1) (one_allocator_schedule v) s /\
  cstep (LRead 0) s = Crash.
Proof.
  intro v. pose (okb := fun (k : nat) (l : label) (s : cstate) => match l with LStartAlloc t => (t =? 0)%nat | _ => true end).
  assert (K : forall k l s, idle_from k s -> okb k l s = true ->
            (fun l (s : cstate) => match l with LStartAlloc t => t = 0%nat | _ => True end) l s).
  { intros k [t|t|t|t sp|t b|t|t|t b x] s _ H; auto. now apply Nat.eqb_eq. }
  assert (C : match ewith (okb 2%nat) (one_allocator_schedule v) (cinit 1) with Step s => cstep (LRead 0) s = Crash | _ => False end)
    by (vm_compute; reflexivity).
  destruct (ewith (okb 2%nat) (one_allocator_schedule v) (cinit 1)) as [| |s] eqn:E; try contradiction.
  exists s. split; [|exact C]. exact (proj1 (ewith_run _ (okb 2%nat) 2 (K 2%nat) (one_allocator_schedule v) (cinit 1) s (cinit_idle 1 2) eq_refl E)).
Qed.
Print Assumptions C113_second_condition_needed.
(** Two deallocations overlap with each other and with one allocation. *)
Definition one_allocator_case : list event :=
  [ Do (LStartAlloc 0); Do (LLoad 0); Do (LRead 0); Do (LCas 0 false); Give 0 1 0;
    Do (LStartAlloc 0); Do (LLoad 0); Do (LRead 0); Do (LCas 0 false); Give 0 2 1;
    Do (LStartAlloc 0); Do (LLoad 0); Do (LRead 0);
    Do (LStartFree 2 1); Do (LStartFree 1 0); Do (LXchg 2); Do (LCas 0 false); Do (LXchg 1); Do (LLink 1); Do (LLoad 0); Do (LLink 2);
    Do (LRead 0); Do (LCas 0 false) ].
Example C113_case : exists s, run_with one_allocator_rule (cinit 3) one_allocator_case s /\
  holders s = [(0, 0)]%nat /\ chead s = At 1 /\ pcs s 0%nat = Idle.
Proof. run_case 3%nat one_allocator_rule oneb oneb_ok one_allocator_case 3%nat. Qed.

(** C114. One core: the main program allocates and returns, interrupt handlers return blocks they were given, at any point of the main
    program and of handlers of lower priority. *)
Theorem C114_handlers_may_return : forall n s, (0 < n)%nat -> reachable_with handlers_free_rule n s -> pool_safe handlers_free_rule n s.
Proof. exact irq_safe. Qed.
Print Assumptions C114_handlers_may_return.
Definition irqb (k : nat) (l : label) (s : cstate) : bool :=
  nestedb k l s && match l with LStartAlloc t => (t =? 0)%nat | _ => true end.
Lemma irqb_ok : forall k l s, idle_from k s -> irqb k l s = true -> handlers_free_rule l s.
Proof.
  intros k l s I H. apply andb_true_iff in H. destruct H as [H1 H2]. split; [now apply (nestedb_ok k)|].
  destruct l; auto. now apply Nat.eqb_eq.
Qed.
(** The main program is interrupted in the middle of an allocate by handler 1, which is interrupted between its two accesses by
    handler 2. *)
Definition irq_case : list event :=
  [ Do (LStartAlloc 0); Do (LLoad 0); Do (LRead 0); Do (LCas 0 false); Give 0 1 0;
    Do (LStartAlloc 0); Do (LLoad 0); Do (LRead 0); Do (LCas 0 false); Give 0 2 1;
    Do (LStartAlloc 0); Do (LLoad 0); Do (LRead 0);
    Do (LStartFree 1 0); Do (LXchg 1); Do (LStartFree 2 1); Do (LXchg 2); Do (LLink 2); Do (LLink 1);
    Do (LCas 0 false); Do (LLoad 0); Do (LRead 0); Do (LCas 0 false) ].
Example C114_case : exists s, run_with handlers_free_rule (cinit 3) irq_case s /\
  holders s = [(0, 1)]%nat /\ chead s = At 0 /\ pcs s 0%nat = Idle.
Proof. run_case 3%nat handlers_free_rule irqb irqb_ok irq_case 3%nat. Qed.

(** C115. Full claim: [forall n s, (0 < n)%nat -> reachable_with nested_rule n s -> pool_safe nested_rule n s], that is, handlers may
    allocate too. It is false in two ways: a handler that allocates and returns while the main program allocates, and a handler that
    only allocates while the main program only returns. *)
Definition irq_alloc_schedule (v : Z) : list event :=
  [ Do (LStartAlloc 0); Do (LLoad 0); Do (LRead 0); Do (LCas 0 false); Do (LWrite 0 0 v); Do (LStartFree 0 0); Do (LXchg 0);
    Do (LStartAlloc 1); Do (LLoad 1); Do (LRead 1); Do (LCas 1 false); Do (LStartAlloc 1); Do (LLoad 1) ].
Theorem C115_handlers_may_allocate_refuted :
  (forall n, (2 <= n)%nat ->
     exists s, run_with nested_rule (cinit n) (map Do aba_schedule) s /\ holders s = [(0, 1); (0, 0); (1, 1)]%nat) /\
  (forall n v, (1 <= n)%nat -> exists s, run_with nested_rule (cinit n) (irq_alloc_schedule v) s /\
     nested_rule (LRead 1) s /\ cstep (LRead 1) s = Crash).
Proof.
  split.
  - intros n Hn. run_from (cinit_two n Hn) 2%nat nested_rule nestedb nestedb_ok (map Do aba_schedule) n.
  - intros n v Hn. destruct (cinit_one n Hn) as (q & m & Ei).
    assert (C : match ewith (nestedb 2) (irq_alloc_schedule v) (cinit n) with Step s => cstep (LRead 1) s = Crash | _ => False end)
      by (rewrite Ei; vm_compute; reflexivity).
    destruct (ewith (nestedb 2) (irq_alloc_schedule v) (cinit n)) as [| |s] eqn:E; try contradiction.
    destruct (ewith_run nested_rule (nestedb 2) 2 (nestedb_ok 2) (irq_alloc_schedule v) (cinit n) s (cinit_idle n 2) eq_refl E) as [R I].
    exists s. split; [exact R|]. split; [|exact C]. intros t Ht. apply I. cbn [thread_of] in Ht. lia.
Qed.
Print Assumptions C115_handlers_may_allocate_refuted.

(** C116. Calls one at a time are safe, and then allocate returns null exactly if all blocks are held. *)
Theorem C116_serial : forall n s, (0 < n)%nat -> reachable_with serial_rule n s ->
  pool_safe serial_rule n s /\
  forall t, pcs s t = ALoad -> exists s', cstep (LLoad t) s = Step s' /\ (pcs s' t = Idle <-> length (held s) = n).
Proof. exact serial_safe. Qed.
Print Assumptions C116_serial.
(** What is left of C115: handlers may allocate if nobody is interrupted inside of the pool's functions. *)
Definition both_rule : rule := fun l s => nested_rule l s /\ serial_rule l s.
Theorem C115_handlers_may_allocate_partial : forall n s, (0 < n)%nat ->
  reachable_with both_rule n s -> pool_safe serial_rule n s.
Proof.
  intros n s Hn [es R]. apply C116_serial; [exact Hn|]. exists es. eapply run_impl; [|exact R]. intros l x H. apply H.
Qed.
Print Assumptions C115_handlers_may_allocate_partial.
Definition serial_case : list event :=
  [ Do (LStartAlloc 0); Do (LLoad 0); Do (LRead 0); Do (LCas 0 false); Do (LStartAlloc 1); Do (LLoad 1); Do (LRead 1); Do (LCas 1 false);
    Give 1 0 1; Do (LStartFree 0 1); Do (LXchg 0); Do (LLink 0); Do (LStartAlloc 2); Do (LLoad 2); Do (LRead 2); Do (LCas 2 false);
    Do (LStartAlloc 2) ].
Example C116_case : exists s, run_with serial_rule (cinit 2) serial_case s /\ holders s = [(2, 1); (0, 0)]%nat /\ pcs s 2%nat = ALoad.
Proof. run_case 3%nat serial_rule serialb serialb_ok serial_case 2%nat. Qed.
Definition bothb (k : nat) (l : label) (s : cstate) : bool := nestedb k l s && serialb k l s.
Lemma bothb_ok : forall k l s, idle_from k s -> bothb k l s = true -> both_rule l s.
Proof. intros k l s I H. apply andb_true_iff in H. split; [eapply nestedb_ok|eapply serialb_ok]; eauto; apply H. Qed.
Example C115_case : exists s, run_with both_rule (cinit 2) serial_case s /\ holders s = [(2, 1); (0, 0)]%nat.
Proof. run_case 3%nat both_rule bothb bothb_ok serial_case 2%nat. Qed.

(** C117. Full claim: [forall n s, (0 < n)%nat -> reachable n s -> ~ data_race (fun _ _ => True) s]. It fails even if every thread only
    allocates and writes what it got: thread 0 reads the link of block 0 while thread 1 writes the block it has allocated. *)
Definition allocate_only_rule : rule := fun l _ => match l with LStartFree _ _ => False | _ => True end.
Definition race_schedule : list event :=
  [ Do (LStartAlloc 0); Do (LLoad 0); Do (LStartAlloc 1); Do (LLoad 1); Do (LRead 1); Do (LCas 1 false) ].
Theorem C117_race_free_refuted : exists s, run_with allocate_only_rule (cinit 2) race_schedule s /\ data_race allocate_only_rule s.
Proof.
  pose (okb := fun (k : nat) (l : label) (s : cstate) => match l with LStartFree _ _ => false | _ => true end).
  assert (K : forall k l s, idle_from k s -> okb k l s = true -> allocate_only_rule l s).
  { intros k [t|t|t|t sp|t b|t|t|t b x] s _ H; auto; exact Logic.I || discriminate H. }
  assert (C : match ewith (okb 2%nat) race_schedule (cinit 2) with
              | Step s => pcs s 0%nat = ARead (At 0) /\ pcs s 1%nat = Idle /\ holds s 1 0 = true | _ => False end)
    by (vm_compute; auto).
  destruct (ewith (okb 2%nat) race_schedule (cinit 2)) as [| |s] eqn:E; try contradiction.
  exists s. split; [exact (proj1 (ewith_run _ (okb 2%nat) 2 (K 2%nat) race_schedule (cinit 2) s (cinit_idle 2 2) eq_refl E))|].
  destruct C as (C0 & C1 & C2). exists 1%nat, 0%nat, 0%nat, false. split; [discriminate|]. split.
  - apply access_client with (v := 0); [exact C1|exact C2|exact Logic.I].
  - apply access_read; [exact C0|exact Logic.I].
Qed.
Print Assumptions C117_race_free_refuted.
(** There is no data race if allocations happen one at a time as in C113, hence if handlers only return blocks, and if calls happen one
    at a time. *)
Theorem C117_race_free_partial : forall n s, (0 < n)%nat ->
  (reachable_with one_allocator_rule n s -> ~ data_race one_allocator_rule s) /\
  (reachable_with handlers_free_rule n s -> ~ data_race handlers_free_rule s) /\
  (reachable_with serial_rule n s -> ~ data_race serial_rule s).
Proof.
  intros n s Hn. split; [now apply one_race_free|]. split; [now apply irq_race_free|now apply serial_race_free].
Qed.
Print Assumptions C117_race_free_partial.
(** The hypotheses are met by the runs of C113_case, C114_case and C116_case. *)
Example C117_case : (exists s, reachable_with one_allocator_rule 3 s /\ holders s = [(0, 0)]%nat) /\
  (exists s, reachable_with handlers_free_rule 3 s /\ holders s = [(0, 1)]%nat) /\
  (exists s, reachable_with serial_rule 2 s /\ holders s = [(2, 1); (0, 0)]%nat).
Proof.
  split; [|split].
  - destruct C113_case as (s & R & H). exists s. split; [eexists; exact R|apply H].
  - destruct C114_case as (s & R & H). exists s. split; [eexists; exact R|apply H].
  - destruct C116_case as (s & R & H). exists s. split; [eexists; exact R|apply H].
Qed.
