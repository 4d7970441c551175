(** The project's validation suite, run against the library's own types. *)
From Coq Require Import ZArith Bool List Lia.
From Verif Require Import Outcome CInt SatMathModel SatMathSpec SatMathProofs TimeModel TimeProofs CanFrameModel
  CanFrameSpec CanFrameProofs PoolModel PoolSpec LvsModel LvsSpec LvsProofs.
Import ListNotations.
Open Scope Z_scope.

(** C96: the three suites of lvs/time.hpp. The widths are those that can hold the suite's literal 100. *)
Theorem C96_time_suites_accepted : forall P w conv, wf_platform P -> 8 <= w ->
  accepted (duration_or_time_suite conv (duration_type P w)) /\
  accepted (duration_or_time_suite conv (timepoint_type P w)) /\
  accepted (duration_suite P w) /\
  accepted (time_suite P w).
Proof.
  exact (fun P w conv HP Hw => conj (dur_or_time_duration P w conv HP Hw) (conj (dur_or_time_time P w conv HP Hw)
    (conj (duration_suite_ok P w HP Hw) (time_suite_ok P w HP Hw)))).
Qed.
Print Assumptions C96_time_suites_accepted.

(** C96: acceptance does not establish what the suites are there for. The accepted types still have undefined behaviour
    when a positive duration is taken from zero, and still get earlier times wrong. *)
Theorem C96_acceptance_is_incomplete : forall P w conv, wf_platform P -> 8 <= w ->
  int_width P <= w -> abs_of_min P w = None ->
  accepted (duration_or_time_suite conv (duration_type P w)) /\ accepted (duration_suite P w) /\
  dur_sub P w 0 1 = UB /\
  accepted (duration_or_time_suite conv (timepoint_type P w)) /\ accepted (time_suite P w) /\
  time_add P w 100 (-1) = Ret 0.
Proof.
  intros P w conv HP Hw Hi Ha. pose proof (pow_big w Hw) as [B E].
  split; [now apply dur_or_time_duration|]. split; [now apply duration_suite_ok|].
  split.
  { unfold dur_sub. apply sub_s_undefined; unfold sin_range, smin, smax; (assumption || lia). }
  split; [now apply dur_or_time_time|]. split; [now apply time_suite_ok|].
  unfold time_add. rewrite add_us_neg by (unfold uin_range, sin_range, smin, smax, umax; (assumption || lia)).
  destruct (Z.ltb_spec 100 (2 ^ w + -1)); [reflexivity|lia].
Qed.
Print Assumptions C96_acceptance_is_incomplete.
Example C96_case : wf_platform lp64 /\ accepted (duration_suite lp64 64) /\ accepted (time_suite lp64 32) /\
  int_width lp64 <= 64 /\ abs_of_min lp64 64 = None.
Proof.
  split; [exact lp64_wf|]. split; [apply duration_suite_ok; [exact lp64_wf|lia]|].
  split; [apply time_suite_ok; [exact lp64_wf|lia]|]. split; [vm_compute; discriminate|reflexivity].
Qed.

(** No test case that the suites register is left out (lvs/time.hpp lines 155-161, 269-272; lvs/media/can_frame.hpp lines 284-296). *)
Example C96_all_registered : forall P w conv T mtu fm, length (duration_or_time_suite conv T) = 6%nat /\ length (duration_suite P w) = 3%nat /\
  length (frame_tests mtu fm) = 12%nat.
Proof. intros. repeat split. Qed.

(** C97: over all frame types: an MTU of at most 64 (static_assert) and an 8-bit comparison mask. The suite can be instantiated for
    the type, and all its test cases pass. *)
Theorem C97_frame_suite_accepts_iff : forall mtu fm, (mtu <= 64)%nat -> 0 <= fm <= 255 ->
  ((exists s, frame_suite mtu fm = Some s /\ accepted s) <-> can_mtu mtu /\ fm = 0).
Proof. exact frame_suite_iff. Qed.
Print Assumptions C97_frame_suite_accepts_iff.

(** C97: were it not for the one test case that accepts no other mask, the suite would accept the masks that ignore the three flag
    bits. *)
Theorem C97_masks : forall mtu fm, (mtu <= 64)%nat -> 0 <= fm <= 255 ->
  (accepted (frame_tests mtu fm) <-> can_mtu mtu /\ fm mod 8 = 0).
Proof. exact frame_tests_iff. Qed.
Print Assumptions C97_masks.

Theorem C97_acceptance_protects_mtu : forall mtu fm s, (mtu <= 64)%nat -> 0 <= fm <= 255 ->
  frame_suite mtu fm = Some s -> accepted s ->
  forall f n, 0 <= n -> getDataLength (setDataLength mtu f n) <= Z.of_nat mtu.
Proof.
  intros mtu fm s Hm Hf E A f n Hn.
  destruct (proj1 (frame_suite_iff mtu fm Hm Hf) (ex_intro _ s (conj E A))) as [C _]. clear A. rename C into A.
  refine (proj2 (setDataLength_iff mtu f Hm) _ n Hn).
  unfold can_mtu in A. simpl in A.
  destruct A as [<-|[<-|[<-|[<-|[<-|[<-|[<-|[<-|[]]]]]]]]];
    [exists 8|exists 9|exists 10|exists 11|exists 12|exists 13|exists 14|exists 15];
    vm_compute; repeat split; congruence.
Qed.
Print Assumptions C97_acceptance_protects_mtu.
Example C97_case : (exists s, frame_suite 64 0 = Some s /\ accepted s) /\ (exists s, frame_suite 8 0 = Some s /\ accepted s) /\
  ~ (exists s, frame_suite 10 0 = Some s /\ accepted s) /\ frame_suite 64 1 = None.
Proof.
  split; [apply frame_suite_iff; [lia|lia|split; [unfold can_mtu; simpl; tauto|reflexivity]]|].
  split; [apply frame_suite_iff; [lia|lia|split; [unfold can_mtu; simpl; tauto|reflexivity]]|].
  split; [|reflexivity]. intros A; apply frame_suite_iff in A; try lia; destruct A as [A B].
  unfold can_mtu in A. simpl in A. repeat destruct A as [A|A]; try discriminate A. exact A.
Qed.

(** C98: the test cases in any order and number, one after another on the same pool, as one process runs them; for every pool
    that compiles (NumBlocks > 0) and has no block in use when the first starts, any number of spurious compare-exchange
    failures, with and without exceptions. All pass, and no block is in use afterwards. *)
Theorem C98_pool_suite_accepted : forall n bs size_max exc tr p cs, (0 < n)%nat -> 1 <= bs ->
  history n bs exc tr p -> outstanding tr = [] ->
  exists tr' p', run_tests n bs size_max exc cs p = Ret (map (fun _ => true) cs, p') /\
    history n bs exc tr' p' /\ outstanding tr' = [].
Proof.
  intros n bs size_max exc tr p cs Hn Hb H O.
  destruct (run_tests_ok n bs size_max exc cs tr p Hn Hb H) as [tr' [p' [E [H' L]]]].
  rewrite O in E, L. cbn [length] in E, L. destruct (verdicts_unused n (map fst cs) Hn) as [A B].
  rewrite A, map_map in E. rewrite B in L. exists tr', p'. split; [exact E|]. split; [exact H'|].
  now apply length_zero_iff_nil.
Qed.
Print Assumptions C98_pool_suite_accepted.

(** C98: the verdicts when some blocks are in use, whatever they are and however they came to be. *)
Theorem C98_verdicts : forall n bs size_max exc tr p cs, (0 < n)%nat -> 1 <= bs -> history n bs exc tr p ->
  exists p', run_tests n bs size_max exc cs p = Ret (verdicts n (length (outstanding tr)) (map fst cs), p').
Proof.
  intros n bs size_max exc tr p cs Hn Hb H.
  destruct (run_tests_ok n bs size_max exc cs tr p Hn Hb H) as [tr' [p' [E _]]]. now exists p'.
Qed.
Print Assumptions C98_verdicts.

(** C98: with a block in use, the test case that exhausts the pool fails, and after it every test case that needs a block. *)
Theorem C98_failure_spreads : forall n bs size_max exc tr p sp cs, (0 < n)%nat -> 1 <= bs -> history n bs exc tr p ->
  outstanding tr <> [] ->
  exists p', run_tests n bs size_max exc ((AllocTillOutOfMemoryThenDealloc, sp) :: cs) p =
    Ret (false :: map (fun c => negb (needs_block (fst c))) cs, p').
Proof.
  intros n bs size_max exc tr p sp cs Hn Hb H O.
  destruct (run_tests_ok n bs size_max exc ((AllocTillOutOfMemoryThenDealloc, sp) :: cs) tr p Hn Hb H)
    as [tr' [p' [E _]]].
  exists p'. rewrite E. cbn [map fst verdicts passes used_after].
  destruct (Nat.eqb_spec (length (outstanding tr)) 0) as [Z|_]; [now apply length_zero_iff_nil in Z|].
  rewrite (proj1 (verdicts_full n (map fst cs) Hn)), map_map. reflexivity.
Qed.
Print Assumptions C98_failure_spreads.

Theorem C98_pool_suite_rejects_empty_blocks : forall n bs size_max exc sp tr p, (0 < n)%nat -> bs < 1 ->
  history n bs exc tr p -> exists p', run_test n bs size_max exc AllocDealloc sp p = Ret (false, p').
Proof. exact zero_size_rejected. Qed.
Print Assumptions C98_pool_suite_rejects_empty_blocks.

(** Three blocks, all test cases in the order of the suite; and the same with one block in use. *)
Definition C98_order : list (pool_test * (nat -> nat)) :=
  [(AllocTooLargeBlock, fun i => i); (DeallocateNull, fun i => i); (AllocDealloc, fun i => i);
   (AllocTillOutOfMemoryThenDealloc, fun i => i); (AllocThenDeallocContinuously, fun i => i)].
Example C98_case :
  (let* r := run_tests 3 10 100 true C98_order (pool_init 3) in Ret (fst r)) = Ret [true; true; true; true; true] /\
  (let* r := step 10 true (Alloc 4 0) (pool_init 3) in
   let* r := run_tests 3 10 100 true (C98_order ++ C98_order) (snd r) in Ret (fst r)) =
  Ret [true; true; true; false; false; true; true; false; false; false].
Proof. split; vm_compute; reflexivity. Qed.
Example C98_case_history : exists tr p, history 3 10 true tr p /\ outstanding tr <> [].
Proof.
  exists [(Alloc 4 0, OPtr (At 0))]. eexists. split; [|discriminate].
  econstructor; [apply history_init|exact Logic.I|vm_compute; reflexivity].
Qed.

(** C99: the suite of test_util_math.cpp at every width, not only the listed ones. Full statement: accepted, including
    SaturatingSubMaxFromZero, for signed, unsigned and mixed operands. That test case has undefined behaviour: *)
Theorem C99_suite_runs_into_undefined_behaviour_refuted : exists P w, wf_platform P /\ 8 <= w /\
  m_sub_max_from_zero (math_signed P w) = UB.
Proof. exists lp64, 64. split; [exact lp64_wf|]. split; [lia|]. vm_compute. reflexivity. Qed.
Print Assumptions C99_suite_runs_into_undefined_behaviour_refuted.

Theorem C99_max_from_zero_exact : forall P w, wf_platform P -> 8 <= w ->
  m_sub_max_from_zero (math_unsigned P w) = Ret true /\
  m_sub_max_from_zero (math_mixed P w) = Ret true /\
  m_sub_max_from_zero (math_bool P) = Ret true /\
  (m_sub_max_from_zero (math_signed P w) = UB <-> int_width P <= w /\ abs_of_min P w = None) /\
  (~ (int_width P <= w /\ abs_of_min P w = None) -> m_sub_max_from_zero (math_signed P w) = Ret true).
Proof.
  intros P w HP Hw. destruct (max_from_zero_unsigned P w HP Hw) as [A B]. split; [exact A|]. split; [exact B|]. split; [exact (proj2 (math_bool_ok P HP))|].
  destruct (Z.lt_ge_cases w (int_width P)) as [H|H].
  - rewrite (max_from_zero_narrow P w HP Hw H). split; [|reflexivity]. split; [discriminate|lia].
  - rewrite (max_from_zero_wide P w HP Hw H). destruct (abs_of_min P w); split; try reflexivity.
    + split; [discriminate|]. intros [_ D]. discriminate D.
    + split; auto.
    + intros N. exfalso. apply N. auto.
Qed.
Print Assumptions C99_max_from_zero_exact.

Theorem C99_math_suite_accepted_partial : forall P w, wf_platform P -> 8 <= w ->
  accepted (math_suite (math_signed P w)) /\ accepted (math_suite (math_unsigned P w)) /\
  accepted (math_suite (math_mixed P w)) /\ accepted (math_suite (math_bool P)).
Proof.
  exact (fun P w HP Hw => conj (math_signed_ok P w HP Hw) (conj (math_unsigned_ok P w HP Hw)
    (conj (math_mixed_ok P w HP Hw) (proj1 (math_bool_ok P HP))))).
Qed.
Print Assumptions C99_math_suite_accepted_partial.
Example C99_case : accepted (math_suite (math_signed lp64 64)) /\ m_sub_max_from_zero (math_signed lp64 8) = Ret true
  /\ m_sub_max_from_zero (math_signed lp64 32) = UB /\ m_sub_max_from_zero (math_signed lp64_wrapping 32) = Ret true.
Proof.
  split; [apply math_signed_ok; [exact lp64_wf|lia]|]. repeat split; vm_compute; reflexivity.
Qed.
