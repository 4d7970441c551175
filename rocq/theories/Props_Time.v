(** Properties C09-C17: durations, times and result codes.
    [accumulate op x ds] is the list of values an object takes when it starts at [x] and [op=] is applied with the
    successive elements of [ds] (TimeModel.v). *)
From Coq Require Import ZArith List Bool Lia.
From Verif Require Import Outcome CInt SatMathSpec SatMathModel SatMathProofs TimeModel TimeSpec TimeProofs ResultModel ResultProofs.
Import ListNotations.
Open Scope Z_scope.

(** C09. *)
Theorem C09_duration_accumulates_saturating : forall P w ds x,
  wf_platform P -> 2 <= w -> sin_range w x ->
  Forall (fun d => 0 <= d /\ sin_range w d) ds ->
  exists xs, accumulate (dur_add P w) x ds = Ret xs /\
             nondecreasing xs /\ hd 0 xs = x /\
             last xs 0 = Z.min (smax w) (x + sum_list ds).
Proof. exact dur_accumulate. Qed.
Print Assumptions C09_duration_accumulates_saturating.
Example C09_case : accumulate (dur_add lp64 64) 0 [smax 64 - 1; 0; 5] = Ret [0; smax 64 - 1; smax 64 - 1; smax 64].
Proof. vm_compute; reflexivity. Qed.

(** C10. *)
Theorem C10_time_never_goes_backwards : forall P w ds x,
  wf_platform P -> 1 <= w -> uin_range w x ->
  Forall (fun d => 0 <= d /\ sin_range w d) ds ->
  exists xs, accumulate (time_add P w) x ds = Ret xs /\
             nondecreasing xs /\ hd 0 xs = x /\
             last xs 0 = Z.min (umax w) (x + sum_list ds).
Proof. exact time_accumulate. Qed.
Print Assumptions C10_time_never_goes_backwards.

Theorem C10_time_decreases_to_zero : forall P w ds x,
  wf_platform P -> 1 <= w -> uin_range w x ->
  Forall (fun d => 0 <= d /\ sin_range w d) ds ->
  exists xs, accumulate (time_sub P w) x ds = Ret xs /\
             nondecreasing (rev xs) /\ hd 0 xs = x /\
             last xs 0 = Z.max 0 (x - sum_list ds).
Proof. exact time_decrease. Qed.
Print Assumptions C10_time_decreases_to_zero.
Example C10_case : accumulate (time_add lp64 64) (umax 64 - 7) [5; 0; 5] = Ret [umax 64 - 7; umax 64 - 2; umax 64 - 2; umax 64]
  /\ accumulate (time_sub lp64 64) 7 [5; 5] = Ret [7; 2; 0].
Proof. split; vm_compute; reflexivity. Qed.

(** C11. Full statement: time +/- d = Ret (uclamp w (t +/- d)) for every duration d. False for negative d: *)
Theorem C11_time_plus_duration_refuted : exists P w t d,
  wf_platform P /\ w = 64 /\ uin_range w t /\ sin_range w d /\
  time_add P w t d <> Ret (uclamp w (t + d)) /\ time_sub P w t d <> Ret (uclamp w (t - d)).
Proof.
  exists lp64, 64, 1000000, (-1). split; [exact lp64_wf|]. split; [reflexivity|].
  split; [split; vm_compute; discriminate|]. split; [split; vm_compute; discriminate|].
  split; vm_compute; discriminate.
Qed.
Print Assumptions C11_time_plus_duration_refuted.

Theorem C11_time_plus_duration_iff : forall P w t d,
  wf_platform P -> 1 <= w -> uin_range w t -> sin_range w d ->
  (time_add P w t d = Ret (uclamp w (t + d)) <-> 0 <= d \/ d = smin w \/ t + d <= 0).
Proof. exact add_us_correct_iff. Qed.
Print Assumptions C11_time_plus_duration_iff.

Theorem C11_time_minus_duration_iff : forall P w t d,
  wf_platform P -> 1 <= w -> uin_range w t -> sin_range w d ->
  (time_sub P w t d = Ret (uclamp w (t - d)) <-> 0 <= d \/ d = smin w \/ umax w <= t - d).
Proof. exact sub_us_correct_iff. Qed.
Print Assumptions C11_time_minus_duration_iff.
Example C11_case : time_add lp64 64 1000000 (-1) = Ret 0 /\ time_sub lp64 64 1000000 (-1) = Ret (umax 64).
Proof. split; vm_compute; reflexivity. Qed.

(** C12. *)
Theorem C12_negation_saturates : forall P w a,
  2 <= w -> sin_range w a -> dur_neg P w a = Ret (sclamp w (- a)).
Proof. exact dur_neg_correct. Qed.
Print Assumptions C12_negation_saturates.

Theorem C12_negation_involutive : forall P w a,
  2 <= w -> sin_range w a -> a <> smin w ->
  (let* n := dur_neg P w a in dur_neg P w n) = Ret a.
Proof. exact dur_neg_invol. Qed.
Print Assumptions C12_negation_involutive.

Theorem C12_negation_of_min : forall P w,
  2 <= w -> (let* n := dur_neg P w (smin w) in dur_neg P w n) = Ret (smin w + 1).
Proof. exact dur_neg_min. Qed.
Print Assumptions C12_negation_of_min.
Example C12_case : dur_neg lp64 64 (smin 64) = Ret (smax 64) /\ dur_neg lp64 64 17 = Ret (-17).
Proof. split; vm_compute; reflexivity. Qed.

(** C13. Full statement: getAbs d = Ret (Z.min MAX |d|) for every d. Proved except at MIN, where it is false: *)
Theorem C13_abs_partial : forall P w a,
  wf_platform P -> 2 <= w -> sin_range w a -> a <> smin w ->
  dur_abs P w a = Ret (Z.abs a).
Proof. exact dur_abs_correct. Qed.
Print Assumptions C13_abs_partial.

Theorem C13_abs_refuted : forall P w,
  int_width P <= w -> abs_of_min P w = None -> dur_abs P w (smin w) = UB.
Proof. exact dur_abs_min_wide. Qed.
Print Assumptions C13_abs_refuted.

(** A narrow microsecond type is truncated back: the "absolute value" of MIN is MIN, a negative number. *)
Theorem C13_abs_of_narrow_min_negative : forall P w,
  wf_platform P -> 2 <= w -> w < int_width P -> dur_abs P w (smin w) = Ret (smin w).
Proof. exact dur_abs_min_narrow. Qed.
Print Assumptions C13_abs_of_narrow_min_negative.
(** Otherwise it is whatever std::abs makes of MIN. *)
Theorem C13_abs_of_wide_min : forall P w, wf_platform P -> int_width P <= w ->
  dur_abs P w (smin w) = match abs_of_min P w with Some v => Ret v | None => UB end.
Proof.
  intros P w HP Hw. destruct (abs_of_min P w) as [v|] eqn:E; [now apply dur_abs_min_wide_value|now apply dur_abs_min_wide].
Qed.
Print Assumptions C13_abs_of_wide_min.
Example C13_case : dur_abs lp64 64 (-5) = Ret 5 /\ dur_abs lp64 64 (smin 64) = UB /\ dur_abs lp64 16 (-32768) = Ret (-32768).
Proof. repeat split; vm_compute; reflexivity. Qed.

(** C14. *)
Theorem C14_comparisons_agree_with_integers : forall a b,
  (op_eq a b = true <-> a = b) /\ (op_ne a b = true <-> a <> b) /\
  (op_lt a b = true <-> a < b) /\ (op_gt a b = true <-> a > b) /\
  (op_le a b = true <-> a <= b) /\ (op_ge a b = true <-> a >= b).
Proof. exact comparisons_spec. Qed.
Print Assumptions C14_comparisons_agree_with_integers.

Theorem C14_total_order : forall a b c,
  (op_lt a b = true \/ op_eq a b = true \/ op_gt a b = true) /\
  (op_lt a b = true -> op_lt b a = false /\ op_eq a b = false) /\
  (op_lt a b = true -> op_lt b c = true -> op_lt a c = true) /\
  (op_le a b = negb (op_gt a b)) /\ (op_ge a b = negb (op_lt a b)) /\
  (op_le a b = true -> op_le b a = true -> op_eq a b = true).
Proof. exact comparisons_order. Qed.
Print Assumptions C14_total_order.
Example C14_case : op_lt (smin 64) (smax 64) = true /\ op_ge 3 4 = false.
Proof. split; vm_compute; reflexivity. Qed.

(** C15. *)
Theorem C15_add_then_sub : forall P w t d,
  wf_platform P -> 1 <= w -> uin_range w t -> sin_range w d -> 0 <= d -> t + d <= umax w ->
  (let* u := time_add P w t d in time_sub P w u d) = Ret t.
Proof. exact time_add_sub. Qed.
Print Assumptions C15_add_then_sub.

Theorem C15_sub_then_add : forall P w t d,
  wf_platform P -> 1 <= w -> uin_range w t -> sin_range w d -> 0 <= d -> d <= t ->
  (let* u := time_sub P w t d in time_add P w u d) = Ret t.
Proof. exact time_sub_add. Qed.
Print Assumptions C15_sub_then_add.

Theorem C15_saturation_loses : forall P w t d,
  wf_platform P -> 1 <= w -> uin_range w t -> sin_range w d -> 0 <= d -> umax w < t + d ->
  (let* u := time_add P w t d in time_sub P w u d) = Ret (umax w - d) /\ umax w - d < t.
Proof. exact time_add_sub_saturated. Qed.
Print Assumptions C15_saturation_loses.
(** So the way back succeeds exactly if the way there did not saturate. *)
Theorem C15_exactly : forall P w t d, wf_platform P -> 1 <= w -> uin_range w t -> sin_range w d -> 0 <= d ->
  ((let* u := time_add P w t d in time_sub P w u d) = Ret t <-> t + d <= umax w) /\
  ((let* u := time_sub P w t d in time_add P w u d) = Ret t <-> d <= t) /\
  (t < d -> (let* u := time_sub P w t d in time_add P w u d) = Ret d).
Proof.
  intros P w t d HP Hw Ht Hd H0. split; [|split].
  - split; [|now apply time_add_sub]. intro E. destruct (Z_le_gt_dec (t + d) (umax w)) as [L|G]; [exact L|].
    destruct (time_add_sub_saturated P w t d HP Hw Ht Hd H0) as [E' L]; [lia|]. rewrite E' in E. injection E as E. lia.
  - split; [|intro L; apply time_sub_add; auto]. intro E. destruct (Z_le_gt_dec d t) as [L|G]; [exact L|].
    rewrite (time_sub_add_saturated P w t d HP Hw Ht Hd H0) in E by lia. injection E as E. lia.
  - now apply time_sub_add_saturated.
Qed.
Print Assumptions C15_exactly.
Example C15_case : (let* u := time_add lp64 64 100 7 in time_sub lp64 64 u 7) = Ret 100
  /\ (let* u := time_add lp64 64 (umax 64) 7 in time_sub lp64 64 u 7) = Ret (umax 64 - 7).
Proof. split; vm_compute; reflexivity. Qed.

(** C16. [copied]/[moved] (TimeSpec.v) describe the value of each variable after one copy / move. *)
Theorem C16_copy_and_move : forall cs st c v,
  exec_xfers st (cs ++ [c]) v =
    match c with
    | CopyTo dst src => copied dst src v (exec_xfers st cs)
    | MoveTo dst src => moved dst src v (exec_xfers st cs)
    end.
Proof. exact xfers_spec. Qed.
Print Assumptions C16_copy_and_move.

(** Moves alone never duplicate a (non-zero) value, whatever the sequence, including self-moves. *)
Theorem C16_moves_never_duplicate : forall cs st,
  Forall is_move cs ->
  (forall x y, st x = st y -> st x <> 0 -> x = y) ->
  (forall x y, exec_xfers st cs x = exec_xfers st cs y -> exec_xfers st cs x <> 0 -> x = y).
Proof. exact moves_keep_distinct. Qed.
Print Assumptions C16_moves_never_duplicate.
Example C16_case : let st := exec_xfers (fun x => Z.of_nat x + 10) [MoveTo 0 1; CopyTo 2 0; MoveTo 3 3] in
  st 0%nat = 11 /\ st 1%nat = 0 /\ st 2%nat = 11 /\ st 3%nat = 0 /\ st 4%nat = 14.
Proof. repeat split. Qed.

(** C17. *)
Theorem C17_result_classification : forall r,
  isSuccess r = negb (isFailure r) /\ result_not r = isFailure r /\ (isSuccess r = true <-> 0 < r).
Proof. exact result_classification. Qed.
Print Assumptions C17_result_classification.

Theorem C17_enumerators_classified :
  Forall (fun r => isSuccess r = true) [Success; SuccessPartial; SuccessNothing; SuccessTimeout] /\
  Forall (fun r => isFailure r = true)
         [BufferFull; Failure; BadArgument; UnknownInternalError; OutOfMemory; NotFound; NotImplemented] /\
  NoDup [Success; SuccessPartial; SuccessNothing; SuccessTimeout;
         BufferFull; Failure; BadArgument; UnknownInternalError; OutOfMemory; NotFound; NotImplemented].
Proof. exact enumerators_classified. Qed.
Print Assumptions C17_enumerators_classified.
(** The values that libuavcan.hpp documents. *)
Theorem C17_documented_values : [Success; SuccessPartial; SuccessNothing; SuccessTimeout] = [1; 2; 3; 4] /\
  [BufferFull; Failure; BadArgument; UnknownInternalError; OutOfMemory; NotFound; NotImplemented] = [0; -1; -2; -3; -4; -5; -6].
Proof. split; reflexivity. Qed.
Print Assumptions C17_documented_values.
Example C17_case : isSuccess SuccessTimeout = true /\ isFailure BufferFull = true.
Proof. split; reflexivity. Qed.

(** C84. Full statement: whatever signed durations are added to and subtracted from a duration, in any order, every value
    it takes is the confined walk of [TimeSpec.v]. False: the walk is undefined as soon as the duration is 0 and is
    lowered (even by 0). *)
Theorem C84_duration_history_refuted : exists P w x ops,
  wf_platform P /\ w = 64 /\ sin_range w x /\ Forall (fun o => sin_range w (operand_of o)) ops /\
  x = 10 /\ ops = [DSub 4; DSub 6; DSub 1] /\ run_dops P w x ops = UB.
Proof.
  exists lp64, 64, 10, [DSub 4; DSub 6; DSub 1]. split; [exact lp64_wf|]. split; [reflexivity|].
  split; [split; vm_compute; discriminate|].
  split; [repeat apply Forall_cons; try apply Forall_nil; split; vm_compute; discriminate|].
  split; [reflexivity|]. split; [reflexivity|]. vm_compute; reflexivity.
Qed.
Print Assumptions C84_duration_history_refuted.

Theorem C84_duration_history_exact_when_defined : forall P w ops x xs,
  wf_platform P -> abs_of_min P w = None -> 2 <= w -> sin_range w x ->
  Forall (fun o => sin_range w (operand_of o)) ops ->
  run_dops P w x ops = Ret xs -> xs = confined_walk (smin w) (smax w) x (map step_of ops).
Proof. exact run_dops_value. Qed.
Print Assumptions C84_duration_history_exact_when_defined.

Theorem C84_duration_history_undefined_iff : forall P w ops x,
  wf_platform P -> abs_of_min P w = None -> 2 <= w -> sin_range w x ->
  Forall (fun o => sin_range w (operand_of o)) ops ->
  (run_dops P w x ops = UB <->
   int_width P <= w /\
   exists before o after, ops = before ++ o :: after /\ lowers o /\
     end_of (confined_walk (smin w) (smax w) x (map step_of before)) = 0).
Proof. exact run_dops_ub. Qed.
Print Assumptions C84_duration_history_undefined_iff.
Example C84_case : run_dops lp64 64 10 [DSub 20; DAdd (smin 64); DSub (-7); DAdd (smax 64); DAdd 1] =
                   Ret [10; -10; smin 64; smin 64 + 7; 6; 7].
Proof. vm_compute; reflexivity. Qed.

(** C85. *)
Theorem C85_maximum_duration : forall P w d, wf_platform P -> 2 <= w -> sin_range w d ->
  sin_range w (dur_max w) /\ op_le d (dur_max w) = true /\
  (0 <= d -> dur_add P w (dur_max w) d = Ret (dur_max w)) /\
  (dur_sub P w (dur_max w) d = Ret (Z.min (dur_max w) (dur_max w - d))).
Proof. exact dur_max_greatest. Qed.
Print Assumptions C85_maximum_duration.

Theorem C85_maximum_time : forall P w t d, wf_platform P -> 1 <= w -> uin_range w t -> 0 <= d -> sin_range w d ->
  uin_range w (time_max w) /\ op_le t (time_max w) = true /\
  time_add P w (time_max w) d = Ret (time_max w) /\ time_sub P w (time_max w) d = Ret (time_max w - d).
Proof. exact time_max_greatest. Qed.
Print Assumptions C85_maximum_time.
Example C85_case : dur_max 64 = 9223372036854775807 /\ time_max 64 = 18446744073709551615 /\
  dur_add lp64 64 (dur_max 64) 1 = Ret (dur_max 64) /\ time_sub lp64 64 (time_max 64) 5 = Ret (time_max 64 - 5).
Proof. repeat split; vm_compute; reflexivity. Qed.

(** C143. Full statement: whatever signed durations are added to and subtracted from a time, in any order, every value it
    takes is the confined walk. False: *)
Theorem C143_time_history_refuted : exists P w x ops,
  wf_platform P /\ w = 64 /\ uin_range w x /\ Forall (fun o => sin_range w (operand_of o)) ops /\
  x = 1000 /\ ops = [DAdd 5; DAdd (-1); DAdd 7] /\ run_tops P w x ops = Ret [1000; 1005; 0; 7].
Proof.
  exists lp64, 64, 1000, [DAdd 5; DAdd (-1); DAdd 7]. split; [exact lp64_wf|]. split; [reflexivity|].
  split; [split; vm_compute; discriminate|].
  split; [repeat apply Forall_cons; try apply Forall_nil; split; vm_compute; discriminate|].
  split; [reflexivity|]. split; [reflexivity|]. vm_compute; reflexivity.
Qed.
Print Assumptions C143_time_history_refuted.

(** A history is never undefined and never leaves the range of the type ... *)
Theorem C143_time_history_defined : forall P w ops x, wf_platform P -> 1 <= w -> uin_range w x ->
  exists xs, run_tops P w x ops = Ret xs /\ Forall (uin_range w) xs /\ length xs = S (length ops).
Proof. exact run_tops_total. Qed.
Print Assumptions C143_time_history_defined.

(** ... and is right exactly if each of its steps is. *)
Theorem C143_time_history_iff : forall P w ops x, wf_platform P -> 1 <= w -> uin_range w x ->
  Forall (fun o => sin_range w (operand_of o)) ops ->
  (run_tops P w x ops = Ret (confined_walk 0 (umax w) x (map step_of ops)) <->
   forall before o after, ops = before ++ o :: after ->
     right_step w (end_of (confined_walk 0 (umax w) x (map step_of before))) o).
Proof. exact run_tops_iff. Qed.
Print Assumptions C143_time_history_iff.
Example C143_case : run_tops lp64 64 1000 [DSub 2000; DAdd (-3); DAdd 9; DSub 4; DAdd (umax 64 / 2); DAdd (umax 64 / 2); DAdd 7] =
  Ret (confined_walk 0 (umax 64) 1000 (map step_of [DSub 2000; DAdd (-3); DAdd 9; DSub 4; DAdd (umax 64 / 2); DAdd (umax 64 / 2); DAdd 7])).
Proof. vm_compute; reflexivity. Qed.
