(** Properties C01-C08: saturating arithmetic.
    Reading guide: [saturating_add_s P w l r] etc. are the C++ functions on a [w]-bit type on platform [P]
    (SatMathModel.v); [sclamp w x] / [uclamp w x] is the mathematical integer [x] limited to the range of the signed /
    unsigned [w]-bit type (SatMathSpec.v); [sin_range]/[uin_range] say that a value is representable (CInt.v). *)
From Coq Require Import ZArith Lia.
From Verif Require Import Outcome CInt SatMathSpec SatMathModel SatMathProofs.
Open Scope Z_scope.

(** C01. Full statement: for all representable l, r: saturating_add l r = Ret (sclamp w (l + r)).
    It is false (next theorem); proved here for all operands except l = 0 with r < 0 on types of int width or wider. *)
Theorem C01_signed_add_clamped_partial : forall P w l r,
  wf_platform P -> 2 <= w -> sin_range w l -> sin_range w r ->
  l <> 0 \/ 0 <= r \/ w < int_width P ->
  saturating_add_s P w l r = Ret (sclamp w (l + r)).
Proof. exact add_s_partial. Qed.
Print Assumptions C01_signed_add_clamped_partial.
Example C01_partial_case : saturating_add_s lp64 64 (smax 64 - 3) 10 = Ret (smax 64)
  /\ saturating_add_s lp64 64 (smin 64 + 3) (-10) = Ret (smin 64) /\ wf_platform lp64.
Proof. repeat split; try (vm_compute; reflexivity); simpl; lia || discriminate. Qed.

(** The full statement of C01 is false: 0 + (-1) on a 64-bit type has undefined behaviour. *)
Theorem C01_signed_add_clamped_refuted : exists P w l r,
  wf_platform P /\ 2 <= w /\ sin_range w l /\ sin_range w r /\
  saturating_add_s P w l r = UB.
Proof.
  exists lp64, 64, 0, (-1). split; [exact lp64_wf|].
  split; [lia|]. split; [split; vm_compute; discriminate|]. split; [split; vm_compute; discriminate|].
  vm_compute; reflexivity.
Qed.
Print Assumptions C01_signed_add_clamped_refuted.

(** ... and so does 0 + r for every negative r and every type of int width or wider. *)
Theorem C01_signed_add_zero_undefined : forall P w r,
  2 <= w -> int_width P <= w -> abs_of_min P w = None -> sin_range w r -> r < 0 ->
  saturating_add_s P w 0 r = UB.
Proof. exact add_s_undefined. Qed.
Print Assumptions C01_signed_add_zero_undefined.
Example C01_zero_case : saturating_add_s lp64 32 0 (-7) = UB.
Proof. vm_compute; reflexivity. Qed.

(** C02. Full statement: for all representable l, r: saturating_sub l r = Ret (sclamp w (l - r)). False at l = 0. *)
Theorem C02_signed_sub_clamped_partial : forall P w l r,
  wf_platform P -> 2 <= w -> sin_range w l -> sin_range w r ->
  l <> 0 \/ r < 0 \/ w < int_width P ->
  saturating_sub_s P w l r = Ret (sclamp w (l - r)).
Proof. exact sub_s_partial. Qed.
Print Assumptions C02_signed_sub_clamped_partial.
Example C02_partial_case : saturating_sub_s lp64 64 (smin 64 + 3) 10 = Ret (smin 64)
  /\ saturating_sub_s lp64 64 5 (smin 64) = Ret (smax 64).
Proof. split; vm_compute; reflexivity. Qed.

Theorem C02_signed_sub_clamped_refuted : exists P w l r,
  wf_platform P /\ 2 <= w /\ sin_range w l /\ sin_range w r /\
  saturating_sub_s P w l r = UB.
Proof.
  exists lp64, 64, 0, 1. split; [exact lp64_wf|].
  split; [lia|]. split; [split; vm_compute; discriminate|]. split; [split; vm_compute; discriminate|].
  vm_compute; reflexivity.
Qed.
Print Assumptions C02_signed_sub_clamped_refuted.

Theorem C02_signed_sub_zero_undefined : forall P w r,
  2 <= w -> int_width P <= w -> abs_of_min P w = None -> sin_range w r -> 0 <= r ->
  saturating_sub_s P w 0 r = UB.
Proof. exact sub_s_undefined. Qed.
Print Assumptions C02_signed_sub_zero_undefined.
Example C02_zero_case : saturating_sub_s lp64 32 0 0 = UB.
Proof. vm_compute; reflexivity. Qed.

(** C03. *)
Theorem C03_narrow_signed_total : forall P w l r,
  wf_platform P -> 2 <= w < int_width P -> sin_range w l -> sin_range w r ->
  saturating_add_s P w l r = Ret (sclamp w (l + r)) /\
  saturating_sub_s P w l r = Ret (sclamp w (l - r)).
Proof.
  exact (fun P w l r HP Hw Hl Hr =>
           conj (add_s_partial P w l r HP (proj1 Hw) Hl Hr (or_intror (or_intror (proj2 Hw))))
                (sub_s_partial P w l r HP (proj1 Hw) Hl Hr (or_intror (or_intror (proj2 Hw))))).
Qed.
Print Assumptions C03_narrow_signed_total.
Example C03_case : saturating_sub_s lp64 8 0 127 = Ret (-127) /\ saturating_sub_s lp64 16 (-2) 32767 = Ret (-32768)
  /\ saturating_add_s lp64 8 0 (-128) = Ret (-128).
Proof. repeat split; vm_compute; reflexivity. Qed.

(** C04, with abs(MIN) undefined as the standard says: undefined exactly on the stated operands, exact elsewhere. *)
Theorem C04_signed_add_characterised : forall P w l r,
  wf_platform P -> abs_of_min P w = None -> 2 <= w -> sin_range w l -> sin_range w r ->
  (saturating_add_s P w l r = UB <-> int_width P <= w /\ l = 0 /\ r < 0) /\
  (forall v, saturating_add_s P w l r = Ret v -> v = sclamp w (l + r)).
Proof. exact add_s_iff. Qed.
Print Assumptions C04_signed_add_characterised.

Theorem C04_signed_sub_characterised : forall P w l r,
  wf_platform P -> abs_of_min P w = None -> 2 <= w -> sin_range w l -> sin_range w r ->
  (saturating_sub_s P w l r = UB <-> int_width P <= w /\ l = 0 /\ 0 <= r) /\
  (forall v, saturating_sub_s P w l r = Ret v -> v = sclamp w (l - r)).
Proof. exact sub_s_iff. Qed.
Print Assumptions C04_signed_sub_characterised.

(** C04, whatever the platform makes of abs(MIN). *)
Theorem C04_signed_add_deviates_only_at_zero : forall P w l r,
  wf_platform P -> 2 <= w -> sin_range w l -> sin_range w r ->
  saturating_add_s P w l r <> Ret (sclamp w (l + r)) -> int_width P <= w /\ l = 0 /\ r < 0.
Proof. exact add_s_deviation. Qed.
Print Assumptions C04_signed_add_deviates_only_at_zero.

Theorem C04_signed_sub_deviates_only_at_zero : forall P w l r,
  wf_platform P -> 2 <= w -> sin_range w l -> sin_range w r ->
  saturating_sub_s P w l r <> Ret (sclamp w (l - r)) -> int_width P <= w /\ l = 0 /\ 0 <= r.
Proof. exact sub_s_deviation. Qed.
Print Assumptions C04_signed_sub_deviates_only_at_zero.
Example C04_case : saturating_add_s lp64 64 0 5 = Ret 5 /\ saturating_sub_s lp64 64 0 5 = UB
  /\ saturating_sub_s lp64_wrapping 64 0 5 = Ret (smin 64).
Proof. repeat split; vm_compute; reflexivity. Qed.

(** C05. *)
Theorem C05_no_abs_min_value_repairs : forall P w,
  wf_platform P -> 2 <= w -> int_width P <= w ->
  (exists r, sin_range w r /\ 0 <= r /\ saturating_sub_s P w 0 r <> Ret (sclamp w (0 - r))) /\
  (exists r, sin_range w r /\ r < 0 /\ saturating_add_s P w 0 r <> Ret (sclamp w (0 + r))).
Proof. exact no_abs_min_repairs. Qed.
Print Assumptions C05_no_abs_min_value_repairs.

Theorem C05_wrapping_abs_gives_min : forall P w r,
  2 <= w -> int_width P <= w -> abs_of_min P w = Some (smin w) -> sin_range w r ->
  (0 <= r -> saturating_sub_s P w 0 r = Ret (smin w)) /\
  (r < 0 -> saturating_add_s P w 0 r = Ret (smin w)).
Proof. exact wrapping_abs_gives_min. Qed.
Print Assumptions C05_wrapping_abs_gives_min.
Example C05_case : abs_of_min lp64_wrapping 64 = Some (smin 64) /\
  saturating_sub_s lp64_wrapping 64 0 0 = Ret (smin 64).
Proof. split; vm_compute; reflexivity. Qed.

(** C06. *)
Theorem C06_unsigned_add_exact : forall P w l r,
  wf_platform P -> 1 <= w -> uin_range w l -> uin_range w r ->
  saturating_add_u P w l r = Ret (uclamp w (l + r)).
Proof. exact add_u_exact. Qed.
Print Assumptions C06_unsigned_add_exact.

Theorem C06_unsigned_sub_exact : forall P w l r,
  wf_platform P -> 1 <= w -> uin_range w l -> uin_range w r ->
  saturating_sub_u P w l r = Ret (uclamp w (l - r)).
Proof. exact sub_u_exact. Qed.
Print Assumptions C06_unsigned_sub_exact.
Theorem C06_bool_exact : forall P l r, wf_platform P -> 0 <= l <= 1 -> 0 <= r <= 1 ->
  saturating_add_b P l r = Ret (Z.min 1 (l + r)) /\ saturating_sub_b P l r = Ret (Z.max 0 (l - r)).
Proof. exact (fun P l r HP Hl Hr => conj (add_b_exact P l r HP Hl Hr) (sub_b_exact P l r HP Hl Hr)). Qed.
Print Assumptions C06_bool_exact.
Example C06_case : saturating_add_u lp64 64 (umax 64 - 1) 2 = Ret (umax 64) /\ saturating_add_b lp64 1 1 = Ret 1
  /\ saturating_sub_u lp64 8 3 200 = Ret 0 /\ saturating_sub_u lp64 16 300 200 = Ret 100.
Proof. repeat split; vm_compute; reflexivity. Qed.

(** C07. Full statement: for all representable operands saturating_add/sub l r = Ret (uclamp w (l +/- r)). False: *)
Theorem C07_mixed_add_exact_refuted : exists P w l r,
  wf_platform P /\ uin_range w l /\ sin_range w r /\
  saturating_add_us P w l r <> Ret (uclamp w (l + r)).
Proof.
  exists lp64, 64, 1000, (-1). split; [exact lp64_wf|].
  split; [split; vm_compute; discriminate|]. split; [split; vm_compute; discriminate|]. vm_compute; discriminate.
Qed.
Print Assumptions C07_mixed_add_exact_refuted.

Theorem C07_mixed_sub_exact_refuted : exists P w l r,
  wf_platform P /\ uin_range w l /\ sin_range w r /\
  saturating_sub_us P w l r <> Ret (uclamp w (l - r)).
Proof.
  exists lp64, 64, 1000, (-1). split; [exact lp64_wf|].
  split; [split; vm_compute; discriminate|]. split; [split; vm_compute; discriminate|]. vm_compute; discriminate.
Qed.
Print Assumptions C07_mixed_sub_exact_refuted.

(** Exactly when the result is right (same width for both operands). *)
Theorem C07_mixed_add_exact_iff : forall P w l r,
  wf_platform P -> 1 <= w -> uin_range w l -> sin_range w r ->
  (saturating_add_us P w l r = Ret (uclamp w (l + r)) <-> 0 <= r \/ r = smin w \/ l + r <= 0).
Proof. exact add_us_correct_iff. Qed.
Print Assumptions C07_mixed_add_exact_iff.

Theorem C07_mixed_sub_exact_iff : forall P w l r,
  wf_platform P -> 1 <= w -> uin_range w l -> sin_range w r ->
  (saturating_sub_us P w l r = Ret (uclamp w (l - r)) <-> 0 <= r \/ r = smin w \/ umax w <= l - r).
Proof. exact sub_us_correct_iff. Qed.
Print Assumptions C07_mixed_sub_exact_iff.

(** What a negative right operand really does: it is re-read as the unsigned number 2^w + r. *)
Theorem C07_mixed_add_negative_value : forall P w l r,
  wf_platform P -> 1 <= w -> uin_range w l -> sin_range w r -> r < 0 ->
  saturating_add_us P w l r = Ret (if l <? 2 ^ w + r then 0 else l - (2 ^ w + r)).
Proof. exact add_us_neg. Qed.
Print Assumptions C07_mixed_add_negative_value.

Theorem C07_mixed_sub_negative_value : forall P w l r,
  wf_platform P -> 1 <= w -> uin_range w l -> sin_range w r -> r < 0 ->
  saturating_sub_us P w l r = Ret (if umax w <? l + (2 ^ w + r) then umax w else l + (2 ^ w + r)).
Proof. exact sub_us_neg. Qed.
Print Assumptions C07_mixed_sub_negative_value.
(** Exactly when the result is right if the signed operand has another width than the unsigned one (any value [r]): a wider
    one is cut down to [w] bits first. *)
Theorem C07_mixed_add_any_width_iff : forall P w l r, wf_platform P -> 1 <= w -> uin_range w l ->
  (saturating_add_us P w l r = Ret (uclamp w (l + r)) <->
   0 <= r <= umax w \/ r = - 2 ^ (w - 1) \/
   (umax w < r /\ umax w <= l + r mod 2 ^ w) \/ (r < 0 /\ l + r <= 0 /\ l <= r mod 2 ^ w)).
Proof. exact mixed_add_any_width. Qed.
Print Assumptions C07_mixed_add_any_width_iff.
Theorem C07_mixed_sub_any_width_iff : forall P w l r, wf_platform P -> 1 <= w -> uin_range w l ->
  (saturating_sub_us P w l r = Ret (uclamp w (l - r)) <->
   0 <= r <= umax w \/ r = - 2 ^ (w - 1) \/
   (umax w < r /\ l <= r mod 2 ^ w) \/ (r < 0 /\ umax w <= l - r /\ umax w <= l + r mod 2 ^ w)).
Proof. exact mixed_sub_any_width. Qed.
Print Assumptions C07_mixed_sub_any_width_iff.
Example C07_width_case : saturating_add_us lp64 8 3 256 = Ret 3 /\ saturating_sub_us lp64 8 3 256 = Ret 3 /\
  saturating_add_us lp64 8 3 (-256) = Ret 3.
Proof. repeat split; reflexivity. Qed.
Example C07_case : saturating_add_us lp64 64 1000 (-1) = Ret 0 /\ saturating_sub_us lp64 64 1000 (-1) = Ret (umax 64).
Proof. split; vm_compute; reflexivity. Qed.

(** C08. *)
Theorem C08_mixed_add_nonnegative_exact : forall P w l r,
  wf_platform P -> 1 <= w -> uin_range w l -> 0 <= r <= umax w ->
  saturating_add_us P w l r = Ret (uclamp w (l + r)).
Proof. exact add_us_nonneg. Qed.
Print Assumptions C08_mixed_add_nonnegative_exact.

Theorem C08_mixed_sub_nonnegative_exact : forall P w l r,
  wf_platform P -> 1 <= w -> uin_range w l -> 0 <= r <= umax w ->
  saturating_sub_us P w l r = Ret (uclamp w (l - r)).
Proof. exact sub_us_nonneg. Qed.
Print Assumptions C08_mixed_sub_nonnegative_exact.
Example C08_case : saturating_add_us lp64 64 (umax 64 - 1) 5 = Ret (umax 64) /\ saturating_sub_us lp64 32 7 9 = Ret 0.
Proof. split; vm_compute; reflexivity. Qed.
