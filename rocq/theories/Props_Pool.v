(** C42-C53: the memory pool. *)
From Coq Require Import ZArith Bool List Arith Lia.
From Verif Require Import Outcome PoolModel PoolSpec PoolProofs PoolConcModel PoolConcSpec PoolConcProofs.
Import ListNotations.
Open Scope Z_scope.

(** A pool of three 16-byte blocks: two blocks taken, one written to, the other returned. *)
Definition pool_trace : trace :=
  [(Free (At 1), ONone); (Write 0 7, ONone); (Alloc 1 2, OPtr (At 1)); (Alloc 16 0, OPtr (At 0))].
Definition pool_end : pool := Pool [CData 7; CNext (At 2); CNext Null] (At 1).
Example pool_history_case : history 3 16 false pool_trace pool_end.
Proof.
  eapply history_step; [eapply history_step; [eapply history_step; [eapply history_step; [apply history_init|exact I|reflexivity]|exact I|reflexivity]| |reflexivity]| |reflexivity];
    simpl; auto.
Qed.

(** C42. *)
Theorem C42_allocate_returns_unused_block : forall n bs exc tr p size k b p',
  (0 < n)%nat -> history n bs exc tr p ->
  step bs exc (Alloc size k) p = Ret (OPtr (At b), p') ->
  (b < n)%nat /\ ~ In b (outstanding tr) /\ size <= bs.
Proof. exact alloc_fresh. Qed.
Print Assumptions C42_allocate_returns_unused_block.
Theorem C42_outstanding_distinct : forall n bs exc tr p, (0 < n)%nat -> history n bs exc tr p ->
  NoDup (outstanding tr) /\ (forall b, In b (outstanding tr) -> (b < n)%nat) /\ (length (outstanding tr) <= n)%nat.
Proof. exact outstanding_nodup. Qed.
Print Assumptions C42_outstanding_distinct.
(** No rule-abiding call is ever undefined, so histories never get stuck. *)
Theorem C42_never_undefined : forall n bs exc tr p o, (0 < n)%nat -> history n bs exc tr p -> legal tr o ->
  exists r p', step bs exc o p = Ret (r, p').
Proof. exact history_safe. Qed.
Print Assumptions C42_never_undefined.
Example C42_case : outstanding pool_trace = [0]%nat /\ legal pool_trace (Alloc 8 0) /\
  step 16 false (Alloc 8 0) pool_end = Ret (OPtr (At 1), Pool (mem pool_end) (At 2)).
Proof. split; [reflexivity |]. split; [exact I | reflexivity]. Qed.

(** C43. *)
Theorem C43_allocate_refused_iff : forall n bs exc tr p size k r p',
  (0 < n)%nat -> history n bs exc tr p ->
  step bs exc (Alloc size k) p = Ret (r, p') ->
  (refused r <-> bs < size \/ length (outstanding tr) = n).
Proof. exact alloc_refused_iff. Qed.
Print Assumptions C43_allocate_refused_iff.
Theorem C43_no_leak : forall n bs exc sz k tr p,
  (0 < n)%nat -> sz <= bs -> history n bs exc tr p -> (length (outstanding tr) + k <= n)%nat ->
  exists tr' p', continues n bs exc tr p (allocs k sz) tr' p' /\ history n bs exc tr' p' /\
    length (outstanding tr') = (length (outstanding tr) + k)%nat.
Proof. exact allocs_succeed. Qed.
Print Assumptions C43_no_leak.
Example C43_case : (length (outstanding pool_trace) + 2 <= 3)%nat /\ refused OThrow /\ ~ refused (OPtr (At 1)) /\
  step 16 true (Alloc 17 0) pool_end = Ret (OThrow, pool_end).
Proof.
  split; [cbn; lia |]. split; [right; reflexivity |]. split; [intros [H | H]; discriminate H | reflexivity].
Qed.

(** C44. *)
Theorem C44_pool_is_lifo : forall n bs exc tr p size k r p',
  (0 < n)%nat -> history n bs exc tr p ->
  step bs exc (Alloc size k) p = Ret (r, p') ->
  r = if size <=? bs
      then match lifo n tr with b :: _ => OPtr (At b) | [] => alloc_failed exc end
      else alloc_failed exc.
Proof. exact alloc_result. Qed.
Print Assumptions C44_pool_is_lifo.
Example C44_case : lifo 3 [(Free (At 0), ONone); (Alloc 1 2, OPtr (At 1)); (Alloc 16 0, OPtr (At 0))] = [0; 2]%nat.
Proof. reflexivity. Qed.

(** C45: for every pool state, reachable or not. *)
Theorem C45_oversized_refused : forall bs exc size k p, max_size bs < size ->
  step bs exc (Alloc size k) p = Ret (if exc then OThrow else OPtr Null, p).
Proof.
  intros bs exc size k p H. unfold max_size in H. simpl. unfold allocate.
  destruct (Z.leb_spec size bs); [lia|reflexivity].
Qed.
Print Assumptions C45_oversized_refused.
Theorem C45_fitting_sizes_equivalent : forall bs exc size size' k p, size <= max_size bs -> size' <= max_size bs ->
  step bs exc (Alloc size k) p = step bs exc (Alloc size' k) p.
Proof.
  intros bs exc size size' k p H H'. unfold max_size in *. simpl. unfold allocate.
  destruct (Z.leb_spec size bs), (Z.leb_spec size' bs); try lia. reflexivity.
Qed.
Print Assumptions C45_fitting_sizes_equivalent.
Theorem C45_spurious_failures_invisible : forall bs exc size k k' p,
  step bs exc (Alloc size k) p = step bs exc (Alloc size k') p.
Proof.
  intros bs exc size k k' p. simpl. unfold allocate. destruct (size <=? bs); [|reflexivity].
  rewrite (alloc_loop_eq exc k), (alloc_loop_eq exc k'). reflexivity.
Qed.
Print Assumptions C45_spurious_failures_invisible.
Example C45_case : step 16 true (Alloc 17 0) (pool_init 2) = Ret (OThrow, pool_init 2) /\
  step 16 false (Alloc 16 5) (pool_init 2) = Ret (OPtr (At 0), Pool [CNext (At 1); CNext Null] (At 1)).
Proof. split; reflexivity. Qed.

(** C46. *)
Theorem C46_deallocate_null_is_noop : forall bs exc p, step bs exc (Free Null) p = Ret (ONone, p).
Proof. reflexivity. Qed.
Print Assumptions C46_deallocate_null_is_noop.
Example C46_case : step 16 true (Free Null) pool_end = Ret (ONone, pool_end).
Proof. reflexivity. Qed.

(** C47. *)
Theorem C47_client_data_survives : forall n bs exc tr p b v r p',
  (0 < n)%nat -> history n bs exc tr p -> In b (outstanding tr) -> last_written tr b = Some v ->
  step bs exc (Read b) p = Ret (r, p') -> r = OData (CData v).
Proof. exact read_back. Qed.
Print Assumptions C47_client_data_survives.
Example C47_case : last_written
  [(Free (At 1), ONone); (Write 0 7, ONone); (Alloc 1 2, OPtr (At 1)); (Alloc 16 0, OPtr (At 0))] 0 = Some 7.
Proof. reflexivity. Qed.

(** C48: [esz] is the size of an element of storage_ (std::aligned_storage guarantees at least the block size), [al] the
    alignment of a block. *)
Theorem C48_blocks_disjoint_aligned_inside : forall n bs ps ma al esz base i j,
  0 < bs -> 0 < al -> block_stride bs ps ma al <= esz -> (al | base) -> (i < n)%nat -> (j < n)%nat -> i <> j ->
  let a := block_address base (block_stride bs ps ma al) in
  base <= a i /\ a i + bs <= base + Z.of_nat n * esz /\ (al | a i) /\ (a i + bs <= a j \/ a j + bs <= a i).
Proof. exact layout. Qed.
Print Assumptions C48_blocks_disjoint_aligned_inside.
Theorem C48_block_holds_pointer : forall bs ps ma al, 0 < bs -> 0 < al ->
  bs <= block_stride bs ps ma al /\ ps <= block_stride bs ps ma al /\ (al | block_stride bs ps ma al).
Proof. exact stride_props. Qed.
Print Assumptions C48_block_holds_pointer.
Example C48_case : block_stride 20 8 32 16 = 32 /\ block_stride 40 8 32 16 = 48.
Proof. split; reflexivity. Qed.

(** C49. Full claim: a successful allocate(n) of an allocator for objects of [tsz] bytes leaves room for n objects. The
    count is passed on as a number of bytes, so it holds exactly for one-byte objects. *)
Theorem C49_refuted : exists bs tsz n b p',
  0 < tsz <= bs /\ step bs false (Alloc n 0) (pool_init 1) = Ret (OPtr (At b), p') /\ bs < n * tsz.
Proof. exists 8, 4, 5, 0%nat. eexists. split; [lia|]. split; [reflexivity|lia]. Qed.
Print Assumptions C49_refuted.
Theorem C49_exact_partial : forall bs tsz, 0 < tsz <= bs -> 2 <= bs ->
  ((forall num n exc tr p k b p', (0 < num)%nat -> history num bs exc tr p ->
      step bs exc (Alloc n k) p = Ret (OPtr (At b), p') -> n * tsz <= bs) <-> tsz = 1).
Proof.
  intros bs tsz H Hbs. split.
  - intros A. specialize (A 1%nat bs false [] (pool_init 1) 0%nat 0%nat (Pool [CNext Null] Null) ltac:(lia) (history_init _ _ _)).
    assert (step bs false (Alloc bs 0) (pool_init 1) = Ret (OPtr (At 0), Pool [CNext Null] Null)) as E.
    { simpl. unfold allocate. rewrite Z.leb_refl. reflexivity. }
    specialize (A E). nia.
  - intros -> num n exc tr p k b p' Hn Hh E. destruct (alloc_fresh _ _ _ _ _ _ _ _ _ Hn Hh E) as [_ [_ Hs]]. lia.
Qed.
Print Assumptions C49_exact_partial.
Example C49_case : history 1 16 false [(Alloc 16 0, OPtr (At 0))] (Pool [CNext Null] Null) /\
  step 16 false (Alloc 16 0) (pool_init 1) = Ret (OPtr (At 0), Pool [CNext Null] Null).
Proof. split; [eapply history_step; [apply history_init | exact I | reflexivity] | reflexivity]. Qed.

(** C50. Full claim: under every schedule of threads that return only blocks they hold, no block has two holders and no
    wild pointer is followed. Three different schedules break it, whatever the number of blocks.
    The first is the ABA problem: thread 0 stalls between reading the list and its compare-exchange. Every deallocate runs
    without interruption here. *)
Definition aba_schedule : list label :=
  [ LStartAlloc 0; LLoad 0; LRead 0;
    LStartAlloc 1; LLoad 1; LRead 1; LCas 1 false;
    LStartAlloc 1; LLoad 1; LRead 1; LCas 1 false;
    LStartFree 1 0; LXchg 1; LLink 1;
    LCas 0 false;
    LStartAlloc 0; LLoad 0; LRead 0; LCas 0 false ].
Theorem C50_aba_refuted : forall n, (2 <= n)%nat ->
  exists s, crun aba_schedule (cinit n) = Step s /\ holders s = [(0, 1); (0, 0); (1, 1)]%nat.
Proof.
  intros n Hn. destruct (cinit_two n Hn) as (q & r & ->). eexists. split; vm_compute; reflexivity.
Qed.
Print Assumptions C50_aba_refuted.
(** With a single block, or any number of them: thread 0 has loaded the list when thread 1 takes the block, writes to it
    and, after thread 0 has read the client's data for a link, returns it. Again every deallocate runs without
    interruption. *)
Definition stale_schedule (v : Z) : list label :=
  [ LStartAlloc 0; LLoad 0;
    LStartAlloc 1; LLoad 1; LRead 1; LCas 1 false; LWrite 1 0 v;
    LRead 0;
    LStartFree 1 0; LXchg 1; LLink 1;
    LCas 0 false;
    LStartAlloc 0; LLoad 0 ].
Theorem C50_stale_refuted : forall n v, (1 <= n)%nat ->
  (exists s, crun (stale_schedule v) (cinit n) = Step s /\ chead s = Wild v) /\
  crun (stale_schedule v ++ [LRead 0]) (cinit n) = Crash.
Proof.
  intros n v Hn. destruct (cinit_one n Hn) as (q & r & ->). split; [eexists; split|]; vm_compute; reflexivity.
Qed.
Print Assumptions C50_stale_refuted.
(** The third: deallocate makes the block visible before it is linked. One thread only allocates, the other only
    deallocates, and the allocating thread ends up following a pointer made of client data. *)
Definition unlinked_schedule (v : Z) : list label :=
  [ LStartAlloc 1; LLoad 1; LRead 1; LCas 1 false; LWrite 1 0 v;
    LStartFree 1 0; LXchg 1;
    LStartAlloc 0; LLoad 0; LRead 0; LCas 0 false;
    LStartAlloc 0; LLoad 0 ].
Theorem C50_unlinked_refuted : forall n v, (1 <= n)%nat ->
  (exists s, crun (unlinked_schedule v) (cinit n) = Step s /\ chead s = Wild v) /\
  crun (unlinked_schedule v ++ [LRead 0]) (cinit n) = Crash.
Proof.
  intros n v Hn. destruct (cinit_one n Hn) as (q & r & ->). split; [eexists; split|]; vm_compute; reflexivity.
Qed.
Print Assumptions C50_unlinked_refuted.

(** C51: [phased_reachable n s]: some schedule leads to [s] in which no deallocate overlaps an allocate. What is missing
    for C50 is exactly the mixed schedules. *)
Theorem C51_exclusive : forall n s, (0 < n)%nat -> phased_reachable n s ->
  NoDup (held s) /\ (forall b, In b (held s) -> (b < n)%nat) /\ (forall l, phase_ok l s -> cstep l s <> Crash).
Proof. exact phased_exclusive. Qed.
Print Assumptions C51_exclusive.
(** allocate gives up (the load sees null) exactly when all blocks are held. *)
Theorem C51_null_iff_exhausted : forall n s t, (0 < n)%nat -> phased_reachable n s -> pcs s t = ALoad ->
  (chead s = Null <-> length (held s) = n).
Proof. exact phased_null. Qed.
Print Assumptions C51_null_iff_exhausted.
(** Whichever step ends a call of allocate, the caller gets no block exactly when all blocks are held. *)
Theorem C51_refused_iff_exhausted : forall n s l s' t, (0 < n)%nat -> phased_reachable n s -> cstep l s = Step s' ->
  allocating (pcs s t) -> pcs s' t = Idle ->
  (holders s' = holders s <-> length (held s) = n) /\ (holders s' = holders s \/ exists b, holders s' = (t, b) :: holders s).
Proof. exact phased_refused. Qed.
Print Assumptions C51_refused_iff_exhausted.
(** No block is lost: whenever no call is in progress and a block is not held, any thread can allocate one. *)
Theorem C51_not_lost : forall n s t, (0 < n)%nat -> phased_reachable n s -> quiescent s -> (length (held s) < n)%nat ->
  exists b s', phased_run s [LStartAlloc t; LLoad t; LRead t; LCas t false] s' /\
    holders s' = (t, b) :: holders s /\ quiescent s' /\ ~ In b (held s) /\ (b < n)%nat.
Proof. exact phased_not_lost. Qed.
Print Assumptions C51_not_lost.
(** The contents of a held block change only by writes to that block. *)
Theorem C51_data : forall n s l s' b, (0 < n)%nat -> phased_reachable n s -> phase_ok l s -> In b (held s) ->
  cstep l s = Step s' -> (forall t v, l <> LWrite t b v) -> nth_error (cmem s') b = nth_error (cmem s) b.
Proof. exact phased_data. Qed.
Print Assumptions C51_data.
(** Two overlapping allocations, one of which loses the race and retries, then two overlapping deallocations. *)
Example C51_case : exists s, phased_reachable 3 s /\ quiescent s /\ held s = [] /\ chead s = At 0.
Proof.
  pose (ls := [ LStartAlloc 0; LStartAlloc 1; LLoad 0; LLoad 1; LRead 0; LRead 1; LCas 1 false; LCas 0 false;
             LLoad 0; LRead 0; LCas 0 true; LLoad 0; LRead 0; LCas 0 false;
             LStartFree 0 1; LStartFree 1 0; LXchg 0; LXchg 1; LLink 1; LLink 0 ]).
  assert (C : match crunp 2 ls (cinit 3) with
              | Step s => pcs s 0%nat = Idle /\ pcs s 1%nat = Idle /\ held s = [] /\ chead s = At 0
              | _ => False
              end) by (vm_compute; auto).
  destruct (crunp 2 ls (cinit 3)) as [| |s] eqn:E; try contradiction.
  apply crunp_phased in E; [|reflexivity]. destruct E as [R H]. destruct C as [P0 [P1 [Hh Hc]]].
  exists s. split; [exists ls; exact R|]. repeat split; auto.
  intros [|[|t]]; auto. apply H. lia.
Qed.

(** C52. A thread running alone (without spurious failures) completes from the start of its loop in three steps, in every
    state whatever the other threads have done, unless the list is corrupt. *)
Theorem C52_solo_completes : forall s t b c, pcs s t = ALoad -> chead s = At b -> nth_error (cmem s) b = Some c ->
  exists s', solo 3 s t = Step s' /\ pcs s' t = Idle /\ holders s' = (t, b) :: holders s.
Proof. exact solo_load. Qed.
Print Assumptions C52_solo_completes.
Theorem C52_solo_null_completes : forall s t, pcs s t = ALoad -> chead s = Null ->
  exists s', solo 1 s t = Step s' /\ pcs s' t = Idle /\ holders s' = holders s.
Proof. exact solo_load_null. Qed.
Print Assumptions C52_solo_null_completes.
(** From the moment a thread has loaded the list ([s1]) until its compare-exchange ([s2]) the head changes only if another
    thread completed an allocation. *)
Theorem C52_failure_means_progress : forall s1 ls s2 t b,
  phased_run s1 ls s2 -> (forall t', ~ deallocating (pcs s1 t')) ->
  (forall l, In l ls -> l <> LLoad t) ->
  (exists p, pcs s1 t = ARead p) \/ (exists p q, pcs s1 t = ACas p q) ->
  (exists q, pcs s2 t = ACas (At b) q) ->
  chead s1 = chead s2 \/ (pops s1 < pops s2)%nat.
Proof. exact cas_failure. Qed.
Print Assumptions C52_failure_means_progress.
Example C52_case : exists s, crun [LStartAlloc 0; LLoad 0; LRead 0; LStartAlloc 1; LLoad 1; LRead 1; LCas 1 false] (cinit 2) = Step s /\
  pcs s 0%nat = ACas (At 0) (At 1) /\ chead s = At 1 /\ pops s = 1%nat.
Proof.
  match goal with |- exists s, ?r = _ /\ _ =>
    assert (C : match r with Step s => pcs s 0%nat = ACas (At 0) (At 1) /\ chead s = At 1 /\ pops s = 1%nat | _ => False end)
      by (vm_compute; auto);
    destruct r as [| |s]; try contradiction; eauto
  end.
Qed.

(** C53: in every history, a block returned twice in a row is handed out by every later request, however many there are. *)
Theorem C53_double_free_breaks_exclusivity : forall n bs exc tr p b, (0 < n)%nat -> history n bs exc tr p -> In b (outstanding tr) ->
  exists p1 p2, step bs exc (Free (At b)) p = Ret (ONone, p1) /\ step bs exc (Free (At b)) p1 = Ret (ONone, p2) /\
    forall size k, size <= bs -> step bs exc (Alloc size k) p2 = Ret (OPtr (At b), p2).
Proof. exact double_free. Qed.
Print Assumptions C53_double_free_breaks_exclusivity.
Example C53_case : In 0%nat (outstanding pool_trace) /\ step 8 false (Free (At 1)) pool_end = Ret (ONone, Pool [CData 7; CNext (At 1); CNext Null] (At 1)).
Proof. split; [left; reflexivity | reflexivity]. Qed.
(** However long after it was returned: returning a block that is free ties that block and those the pool would have
    handed out before it into a ring. Requests are then never refused and get the blocks of the ring over and over, the
    block returned twice first; the blocks below it are lost. *)
Theorem C53_free_block_returned_again : forall n bs exc tr p b,
  (0 < n)%nat -> history n bs exc tr p -> (b < n)%nat -> ~ In b (outstanding tr) ->
  exists above below p1, lifo n tr = above ++ b :: below /\ step bs exc (Free (At b)) p = Ret (ONone, p1) /\
    forall sz k, sz <= bs -> exists p2,
      continues n bs exc ((Free (At b), ONone) :: tr) p1 (allocs k sz)
        (rev (served sz (over_and_over (b :: above) k)) ++ (Free (At b), ONone) :: tr) p2.
Proof. exact free_again. Qed.
Print Assumptions C53_free_block_returned_again.
(** The last block of [pool_end] returned although nobody holds it: blocks 2, 1, 2, 1, 2, ... *)
Example C53_free_block_case : lifo 3 pool_trace = [1]%nat ++ 2%nat :: [] /\ ~ In 2%nat (outstanding pool_trace) /\
  over_and_over [2; 1]%nat 5 = [2; 1; 2; 1; 2]%nat.
Proof. split; [reflexivity|]. split; [|reflexivity]. cbn. intros [H|[]]; discriminate. Qed.
