(** The validation suite accepts the library's types. *)
From Coq Require Import ZArith Bool List Lia Permutation.
From Verif Require Import Outcome CInt SatMathModel SatMathSpec SatMathProofs TimeModel TimeProofs CanFrameModel
  PoolModel PoolSpec PoolProofs LvsModel LvsSpec.
Import ListNotations.
Open Scope Z_scope.

Local Ltac rng := unfold sin_range, uin_range, smin, smax, umax in *.
Local Ltac clampc := unfold sclamp, uclamp, clamp, smin, smax, umax;
  repeat match goal with |- context [if ?a <? ?b then _ else _] => destruct (Z.ltb_spec a b) end; try lia.

Lemma assert_true : forall b k, b = true -> assert_then b k = k.
Proof. intros b k ->. reflexivity. Qed.

Lemma expect_ok : forall f a b e c, f a b = Ret c -> e = c -> expect f a b e = Ret true.
Proof. intros f a b e c H ->. unfold expect. rewrite H. cbn [bind]. rewrite Z.eqb_refl. reflexivity. Qed.

Lemma pow_big : forall w, 8 <= w -> 128 <= 2 ^ (w - 1) /\ 2 ^ w = 2 * 2 ^ (w - 1).
Proof.
  intros w Hw. split; [|apply pow_split; lia].
  change 128 with (2 ^ 7). apply Z.pow_le_mono_r; lia.
Qed.

Lemma half_umax : forall w, 1 <= w -> Z.shiftr (umax w) 1 = 2 ^ (w - 1) - 1.
Proof.
  intros w Hw. rewrite Z.shiftr_div_pow2 by lia. change (2 ^ 1) with 2. unfold umax. rewrite (pow_split w) by lia.
  symmetry. apply (Z.div_unique _ _ _ 1); lia.
Qed.

(** * Time and duration *)

Lemma default_operations_ok : default_operations = Ret true.
Proof. reflexivity. Qed.

Lemma comparison_operators_ok : comparison_operators = Ret true.
Proof. reflexivity. Qed.

Lemma concept_ok : forall conv, concept_from_microsecond conv = Ret true.
Proof. intros conv. unfold concept_from_microsecond. now rewrite Z.eqb_refl. Qed.

Lemma dur_or_time_duration : forall P w conv, wf_platform P -> 8 <= w ->
  accepted (duration_or_time_suite conv (duration_type P w)).
Proof.
  intros P w conv HP Hw. pose proof (pow_big w Hw) as [B E]. unfold accepted, duration_or_time_suite.
  repeat constructor; try apply concept_ok.
  - unfold saturated_add. cbn [t_add us_max duration_type]. unfold dur_add.
    rewrite add_s_exact by (try assumption; try lia; rng; lia). cbn [bind].
    replace (sclamp w (smax w + 1)) with (smax w) by clampc. rewrite Z.eqb_refl. reflexivity.
  - unfold get_maximum. cbn [us_max t_maximum duration_type]. unfold dur_max, op_eq. rewrite Z.eqb_refl. reflexivity.
  - unfold saturated_subtract. cbn [t_sub us_min duration_type]. unfold dur_sub.
    rewrite sub_s_exact by (try assumption; try lia; rng; lia). cbn [bind].
    replace (sclamp w (smin w - 1)) with (smin w) by clampc. rewrite Z.eqb_refl. reflexivity.
Qed.

Lemma dur_or_time_time : forall P w conv, wf_platform P -> 8 <= w ->
  accepted (duration_or_time_suite conv (timepoint_type P w)).
Proof.
  intros P w conv HP Hw. pose proof (pow_big w Hw) as [B E]. unfold accepted, duration_or_time_suite.
  repeat constructor; try apply concept_ok.
  - unfold saturated_add. cbn [t_add us_max timepoint_type]. unfold time_add.
    rewrite add_us_nonneg by (try assumption; try lia; rng; lia). cbn [bind].
    replace (uclamp w (umax w + 1)) with (umax w) by clampc. rewrite Z.eqb_refl. reflexivity.
  - unfold get_maximum. cbn [us_max t_maximum timepoint_type]. unfold time_max, op_eq. rewrite Z.eqb_refl. reflexivity.
  - unfold saturated_subtract. cbn [t_sub us_min timepoint_type]. unfold time_sub.
    rewrite sub_us_nonneg by (try assumption; try lia; rng; lia). cbn [bind].
    replace (uclamp w (0 - 1)) with 0 by clampc. reflexivity.
Qed.

Local Ltac go_assert :=
  match goal with
  | |- assert_then ?b _ = _ => rewrite assert_true by (unfold op_eq; apply Z.eqb_eq; lia)
  end.

Lemma duration_suite_ok : forall P w, wf_platform P -> 8 <= w -> accepted (duration_suite P w).
Proof.
  intros P w HP Hw. pose proof (pow_big w Hw) as [B E].
  unfold accepted, duration_suite. constructor; [|constructor; [|constructor; [apply default_operations_ok|constructor]]].
  - unfold absolute_value. rewrite dur_abs_correct by (try assumption; rng; lia). cbn [bind]. go_assert.
    rewrite dur_abs_correct by (try assumption; rng; lia). cbn [bind]. go_assert. reflexivity.
  - assert (Hmax : smax w = 2 ^ (w - 1) - 1) by reflexivity. assert (Hmin : smin w = - 2 ^ (w - 1)) by reflexivity.
    assert (A : forall l r, sin_range w l -> sin_range w r -> l <> 0 -> dur_add P w l r = Ret (sclamp w (l + r)))
      by (intros; apply add_s_exact; auto; lia).
    assert (S0 : forall l r, sin_range w l -> sin_range w r -> l <> 0 -> dur_sub P w l r = Ret (sclamp w (l - r)))
      by (intros; apply sub_s_exact; auto; lia).
    assert (N : forall a, sin_range w a -> dur_neg P w a = Ret (sclamp w (- a)))
      by (intros; apply dur_neg_correct; [lia|assumption]).
    unfold duration_arithmetic, dur_max.
    rewrite A by (rng; lia). cbn [bind]. replace (sclamp w (1 + 1)) with 2 by clampc. go_assert.
    rewrite A by (rng; lia). cbn [bind]. replace (sclamp w (2 + smax w)) with (smax w) by clampc. go_assert.
    rewrite S0 by (rng; lia). cbn [bind]. go_assert.
    rewrite N by (rng; lia). cbn [bind]. replace (sclamp w (- (1))) with (-1) by clampc. go_assert.
    rewrite N by (rng; lia). cbn [bind]. replace (sclamp w (- smax w)) with (smin w + 1) by clampc. go_assert.
    rewrite S0 by (rng; lia). cbn [bind]. replace (sclamp w (smax w - 1)) with (smax w - 1) by clampc.
    rewrite N by (rng; lia). cbn [bind]. replace (sclamp w (- (smax w - 1))) with (smin w + 2) by clampc. go_assert.
    rewrite N by (rng; lia). cbn [bind]. replace (sclamp w (- smin w)) with (smax w) by clampc. go_assert.
    rewrite N by (rng; lia). cbn [bind]. replace (sclamp w (- (smin w + 1))) with (smax w) by clampc. go_assert.
    rewrite N by (rng; lia). cbn [bind]. replace (sclamp w (- (smin w + 2))) with (smax w - 1) by clampc. go_assert.
    reflexivity.
Qed.

Lemma time_suite_ok : forall P w, wf_platform P -> 8 <= w -> accepted (time_suite P w).
Proof.
  intros P w HP Hw. pose proof (pow_big w Hw) as [B E].
  unfold accepted, time_suite. constructor; [|constructor; [apply default_operations_ok|constructor]].
  assert (A : forall t d, uin_range w t -> 0 <= d <= umax w -> time_add P w t d = Ret (uclamp w (t + d)))
    by (intros; apply add_us_nonneg; auto; lia).
  unfold time_arithmetic, time_max, dur_max.
  rewrite A by (rng; lia). cbn [bind]. replace (uclamp w (1 + 1)) with 2 by clampc. go_assert.
  rewrite A by (rng; lia). cbn [bind]. replace (uclamp w (0 + smax w)) with (smax w) by clampc.
  rewrite scast_id by (rng; lia). go_assert.
  rewrite A by (rng; lia). cbn [bind]. replace (uclamp w (umax w + smax w)) with (umax w) by clampc. go_assert.
  unfold time_sub. rewrite sub_us_nonneg by (try assumption; try lia; rng; lia). cbn [bind].
  replace (uclamp w (1 - 1)) with 0 by clampc. go_assert. reflexivity.
Qed.

(** * Saturation mathematics *)

Lemma scast_m1 : forall w, 8 <= w -> scast w (-1) = -1.
Proof. intros w Hw. pose proof (pow_big w Hw). apply scast_id; rng; lia. Qed.

Local Ltac proj := cbn [l_min l_max r_min r_max math_signed math_unsigned math_mixed].
Local Ltac use_s lem := eapply expect_ok; [apply lem; proj; try assumption; try lia; rng; lia|].

Lemma math_signed_ok : forall P w, wf_platform P -> 8 <= w -> accepted (math_suite (math_signed P w)).
Proof.
  intros P w HP Hw. pose proof (pow_big w Hw) as [B E]. unfold accepted, math_suite.
  repeat apply Forall_cons; try apply Forall_nil.
  - use_s add_s_exact. cbn. clampc.
  - use_s sub_s_exact. cbn. clampc.
  - unfold m_nonsaturating_add. cbv zeta. cbn [l_cast l_max math_signed]. rewrite !scast_id by (rng; rewrite ?scast_id by (rng; lia); lia).
    use_s add_s_exact. clampc.
  - unfold m_nonsaturating_sub. cbv zeta. cbn [l_cast l_min math_signed]. rewrite !scast_id by (rng; rewrite ?scast_id by (rng; lia); lia).
    use_s sub_s_exact. clampc.
  - use_s add_s_exact. cbn. clampc.
  - use_s add_s_exact. cbn [l_signed l_cast l_min r_max math_signed]. rewrite scast_m1 by lia. clampc.
  - use_s add_s_exact. cbn. clampc.
  - use_s add_s_exact. cbn [l_signed l_cast l_max r_min math_signed]. rewrite scast_m1 by lia. clampc.
  - use_s add_s_exact. cbn. clampc.
  - use_s add_s_exact. cbn. clampc.
  - use_s add_s_exact. cbn [l_cast r_max math_signed]. rewrite scast_id by (rng; lia). clampc.
  - use_s add_s_exact. cbn. clampc.
  - use_s sub_s_exact. cbn. clampc.
  - use_s sub_s_exact. cbn. clampc.
  - use_s sub_s_exact. cbn. clampc.
  - use_s sub_s_exact. cbn. clampc.
  - use_s sub_s_exact. cbn. clampc.
  - use_s sub_s_exact. cbn. clampc.
  - unfold m_sub_zero_from_max. cbn [m_sub l_max math_signed].
    rewrite sub_s_exact by (try assumption; try lia; rng; lia). cbn [bind].
    rewrite assert_true; [reflexivity|]. apply Z.leb_le. clampc.
Qed.

Lemma math_unsigned_ok : forall P w, wf_platform P -> 8 <= w -> accepted (math_suite (math_unsigned P w)).
Proof.
  intros P w HP Hw. pose proof (pow_big w Hw) as [B E]. unfold accepted, math_suite.
  repeat apply Forall_cons; try apply Forall_nil.
  - use_s add_u_exact. cbn. clampc.
  - use_s sub_u_exact. cbn. clampc.
  - unfold m_nonsaturating_add. cbv zeta. cbn [l_cast l_max math_unsigned]. rewrite !ucast_id by (rng; rewrite ?ucast_id by (rng; lia); lia).
    use_s add_u_exact. clampc.
  - unfold m_nonsaturating_sub. cbv zeta. cbn [l_cast l_min math_unsigned]. rewrite !ucast_id by (rng; rewrite ?ucast_id by (rng; lia); lia).
    use_s sub_u_exact. clampc.
  - use_s add_u_exact. cbn. clampc.
  - use_s add_u_exact. cbn. clampc.
  - use_s add_u_exact. cbn. clampc.
  - use_s add_u_exact. cbn. clampc.
  - use_s add_u_exact. cbn. clampc.
  - use_s add_u_exact. cbn. clampc.
  - use_s add_u_exact. cbn [l_cast r_max math_unsigned]. rewrite ucast_id by (rng; lia). clampc.
  - use_s add_u_exact. cbn. clampc.
  - use_s sub_u_exact. cbn. clampc.
  - use_s sub_u_exact. cbn. clampc.
  - use_s sub_u_exact. cbn. clampc.
  - use_s sub_u_exact. cbn. clampc.
  - use_s sub_u_exact. cbn. clampc.
  - use_s sub_u_exact. cbn. clampc.
  - unfold m_sub_zero_from_max. cbn [m_sub l_max math_unsigned].
    rewrite sub_u_exact by (try assumption; try lia; rng; lia). cbn [bind].
    rewrite assert_true; [reflexivity|]. apply Z.leb_le. clampc.
Qed.

Local Ltac use_neg lem := eapply expect_ok; [apply lem; proj; try assumption; try lia; rng; lia|];
  cbn [l_signed r_signed l_cast l_min l_max r_min r_max math_mixed Bool.eqb]; rewrite ?half_umax by lia;
  unfold smin, smax, umax in *;
  repeat match goal with |- context [if ?a <? ?b then _ else _] => destruct (Z.ltb_spec a b) end; try lia.

Lemma math_mixed_ok : forall P w, wf_platform P -> 8 <= w -> accepted (math_suite (math_mixed P w)).
Proof.
  intros P w HP Hw. pose proof (pow_big w Hw) as [B E]. unfold accepted, math_suite.
  repeat apply Forall_cons; try apply Forall_nil.
  - use_s add_us_nonneg. cbn. clampc.
  - use_s sub_us_nonneg. cbn. clampc.
  - unfold m_nonsaturating_add. cbv zeta. cbn [l_cast l_max math_mixed]. rewrite !ucast_id by (rng; rewrite ?ucast_id by (rng; lia); lia).
    use_s add_us_nonneg. clampc.
  - unfold m_nonsaturating_sub. cbv zeta. cbn [l_cast l_min math_mixed]. rewrite !ucast_id by (rng; rewrite ?ucast_id by (rng; lia); lia).
    use_s sub_us_nonneg. clampc.
  - use_s add_us_nonneg. cbn. clampc.
  - use_s add_us_nonneg. cbn [l_signed r_signed l_cast l_min r_max math_mixed]. rewrite ucast_id by (rng; lia). clampc.
  - use_neg add_us_neg.
  - use_neg add_us_neg.
  - use_neg add_us_neg.
  - use_neg add_us_neg.
  - use_s add_us_nonneg. cbn [l_cast r_max math_mixed]. rewrite ucast_id by (rng; lia). clampc.
  - use_s add_us_nonneg. cbn. clampc.
  - use_s sub_us_nonneg. cbn. clampc.
  - use_s sub_us_nonneg. cbn. clampc.
  - use_neg sub_us_neg.
  - use_neg sub_us_neg.
  - use_neg sub_us_neg.
  - use_neg sub_us_neg.
  - unfold m_sub_zero_from_max. cbn [m_sub l_max math_mixed].
    rewrite sub_us_nonneg by (try assumption; try lia; rng; lia). cbn [bind].
    rewrite assert_true; [reflexivity|]. apply Z.leb_le. clampc.
Qed.

Lemma math_bool_ok : forall P, wf_platform P ->
  accepted (math_suite (math_bool P)) /\ m_sub_max_from_zero (math_bool P) = Ret true.
Proof.
  intros P HP. split.
  - unfold accepted, math_suite. repeat apply Forall_cons; try apply Forall_nil;
    try unfold m_nonsaturating_add, m_nonsaturating_sub, m_sub_zero_from_max; cbv zeta;
    cbn [l_cast l_max l_min math_bool m_sub];
    first [ eapply expect_ok; [first [apply add_b_exact|apply sub_b_exact]; (assumption || (cbn; lia))|reflexivity]
          | rewrite sub_b_exact by (assumption || (cbn; lia)); reflexivity ].
  - unfold m_sub_max_from_zero. cbn [m_sub r_max l_min math_bool]. rewrite sub_b_exact by (assumption || lia). cbn [bind Z.max Z.sub Z.add Z.opp Z.compare].
    rewrite assert_true by reflexivity. rewrite sub_b_exact by (assumption || (cbn; lia)). reflexivity.
Qed.

Lemma max_from_zero_unsigned : forall P w, wf_platform P -> 8 <= w ->
  m_sub_max_from_zero (math_unsigned P w) = Ret true /\ m_sub_max_from_zero (math_mixed P w) = Ret true.
Proof.
  intros P w HP Hw. pose proof (pow_big w Hw) as [B E]. split; unfold m_sub_max_from_zero.
  - cbn [m_sub l_min r_max math_unsigned]. rewrite sub_u_exact by (try assumption; try lia; rng; lia). cbn [bind].
    replace (uclamp w (0 - umax w)) with 0 by clampc. cbn [Z.leb Z.compare assert_then].
    rewrite sub_u_exact by (try assumption; try lia; rng; lia). cbn [bind].
    replace (uclamp w (0 - umax w)) with 0 by clampc. reflexivity.
  - cbn [m_sub l_min r_max math_mixed]. rewrite sub_us_nonneg by (try assumption; try lia; rng; lia). cbn [bind].
    replace (uclamp w (0 - smax w)) with 0 by clampc. cbn [Z.leb Z.compare assert_then].
    rewrite sub_us_nonneg by (try assumption; try lia; rng; lia). cbn [bind].
    replace (uclamp w (0 - smax w)) with 0 by clampc. reflexivity.
Qed.

Lemma max_from_zero_narrow : forall P w, wf_platform P -> 8 <= w -> w < int_width P ->
  m_sub_max_from_zero (math_signed P w) = Ret true.
Proof.
  intros P w HP Hw Hn. pose proof (pow_big w Hw) as [B E]. unfold m_sub_max_from_zero.
  cbn [m_sub l_min r_max math_signed]. rewrite sub_s_exact by (try assumption; try lia; rng; lia). cbn [bind].
  replace (sclamp w (0 - smax w)) with (- smax w) by clampc.
  rewrite assert_true by (apply Z.leb_le; rng; lia).
  rewrite sub_s_exact by (try assumption; try lia; rng; lia). cbn [bind].
  replace (sclamp w (- smax w - smax w)) with (smin w) by clampc. rewrite Z.eqb_refl. reflexivity.
Qed.

Lemma max_from_zero_wide : forall P w, wf_platform P -> 8 <= w -> int_width P <= w ->
  m_sub_max_from_zero (math_signed P w) = match abs_of_min P w with None => UB | Some _ => Ret true end.
Proof.
  intros P w HP Hw Hn. pose proof (pow_big w Hw) as [B E]. unfold m_sub_max_from_zero.
  cbn [m_sub l_min r_max math_signed]. rewrite sub_s_zero by (try assumption; try lia; rng; lia).
  destruct (abs_of_min P w) as [v|] eqn:Ev; [|reflexivity].
  match goal with |- context [Ret (if ?c then ?a else ?b)] => destruct c end; cbn [bind].
  - rewrite assert_true by (apply Z.leb_le; lia).
    rewrite sub_s_exact by (try assumption; try lia; rng; lia). cbn [bind].
    replace (sclamp w (smin w - smax w)) with (smin w) by clampc. rewrite Z.eqb_refl. reflexivity.
  - rewrite assert_true by (apply Z.leb_le; rng; lia).
    rewrite sub_s_exact by (try assumption; try lia; rng; lia). cbn [bind].
    match goal with |- context [sclamp w ?x] => replace (sclamp w x) with (smin w) by clampc end.
    rewrite Z.eqb_refl. reflexivity.
Qed.

(** * Frames *)

Definition acceptedb (suite : list (outcome bool)) : bool :=
  forallb (fun t => match t with Ret true => true | _ => false end) suite.

Lemma acceptedb_iff : forall suite, acceptedb suite = true <-> accepted suite.
Proof.
  unfold acceptedb, accepted. intros suite. rewrite forallb_forall, Forall_forall. split; intros H t Ht.
  - specialize (H t Ht). destruct t as [[]|]; try discriminate H. reflexivity.
  - rewrite (H t Ht). reflexivity.
Qed.

Definition can_mtub (mtu : nat) : bool := existsb (Nat.eqb mtu) [8; 12; 16; 20; 24; 32; 48; 64]%nat.

Lemma can_mtub_iff : forall mtu, can_mtub mtu = true <-> can_mtu mtu.
Proof.
  intros mtu. unfold can_mtub, can_mtu. rewrite existsb_exists. split.
  - intros [x [Hx E]]. apply Nat.eqb_eq in E. now subst.
  - intros H. exists mtu. split; [exact H|apply Nat.eqb_refl].
Qed.

Lemma frame_suite_table : forallb (fun mtu => forallb (fun fm => Bool.eqb (acceptedb (frame_tests mtu fm))
    (can_mtub mtu && (fm mod 8 =? 0))) (map Z.of_nat (seq 0 256))) (seq 0 65) = true.
Proof. vm_compute. reflexivity. Qed.

Lemma frame_tests_iff : forall mtu fm, (mtu <= 64)%nat -> 0 <= fm <= 255 ->
  (accepted (frame_tests mtu fm) <-> can_mtu mtu /\ fm mod 8 = 0).
Proof.
  intros mtu fm Hm Hf. pose proof frame_suite_table as T. rewrite forallb_forall in T.
  assert (Im : In mtu (seq 0 65)) by (apply in_seq; lia).
  specialize (T mtu Im). rewrite forallb_forall in T.
  assert (If : In fm (map Z.of_nat (seq 0 256))).
  { apply in_map_iff. exists (Z.to_nat fm). split; [lia|]. apply in_seq. lia. }
  specialize (T fm If). apply eqb_prop in T.
  rewrite <- acceptedb_iff, T, andb_true_iff, can_mtub_iff, Z.eqb_eq. tauto.
Qed.

Lemma frame_suite_iff : forall mtu fm, (mtu <= 64)%nat -> 0 <= fm <= 255 ->
  ((exists s, frame_suite mtu fm = Some s /\ accepted s) <-> can_mtu mtu /\ fm = 0).
Proof.
  intros mtu fm Hm Hf. unfold frame_suite. destruct (Z.eqb_spec fm 0) as [->|N].
  - pose proof (frame_tests_iff mtu 0 Hm ltac:(lia)) as T. split.
    + intros [s [E A]]. injection E as <-. apply (proj1 T) in A as [A _]. now split.
    + intros [A _]. eexists. split; [reflexivity|]. apply (proj2 T). now split.
  - split; [|tauto]. intros [s [E _]]. discriminate E.
Qed.

(** * Pools *)

Lemma alloc_one : forall n bs exc tr p size k, (0 < n)%nat -> size <= bs -> history n bs exc tr p ->
  (length (outstanding tr) < n)%nat ->
  exists b p', step bs exc (Alloc size k) p = Ret (OPtr (At b), p') /\
    history n bs exc ((Alloc size k, OPtr (At b)) :: tr) p'.
Proof.
  intros n bs exc tr p size k Hn Hs H Hl.
  destruct (history_safe n bs exc tr p (Alloc size k) Hn H I) as [r [p1 E]].
  pose proof (alloc_result _ _ _ _ _ _ _ _ _ Hn H E) as Hres.
  rewrite (proj2 (Z.leb_le size bs)) in Hres by exact Hs.
  pose proof (lengths_add _ _ _ (history_inv _ _ _ _ _ Hn H)) as Ha.
  destruct (lifo n tr) as [|b t] eqn:El; simpl in Ha; [lia|]. subst r.
  exists b, p1. split; [exact E|]. econstructor; eauto. exact I.
Qed.

Lemma alloc_none : forall n bs exc tr p size k, (0 < n)%nat -> history n bs exc tr p ->
  length (outstanding tr) = n \/ bs < size ->
  exists p', step bs exc (Alloc size k) p = Ret (alloc_failed exc, p') /\
    history n bs exc ((Alloc size k, alloc_failed exc) :: tr) p'.
Proof.
  intros n bs exc tr p size k Hn H Hl.
  destruct (history_safe n bs exc tr p (Alloc size k) Hn H I) as [r [p1 E]].
  pose proof (alloc_result _ _ _ _ _ _ _ _ _ Hn H E) as Hres.
  pose proof (lengths_add _ _ _ (history_inv _ _ _ _ _ Hn H)) as Ha.
  assert (r = alloc_failed exc).
  { destruct (Z.leb_spec size bs); [|exact Hres]. destruct (lifo n tr) as [|b t] eqn:El; [exact Hres|]. simpl in Ha. lia. }
  subst r. rewrite H0 in *. exists p1. split; [exact E|]. econstructor; eauto. exact I.
Qed.

Lemma failed_is_refusal : forall exc, is_refusal exc (alloc_failed exc) = true.
Proof. intros []; reflexivity. Qed.

Lemma outstanding_failed : forall exc size k tr, outstanding ((Alloc size k, alloc_failed exc) :: tr) = outstanding tr.
Proof. intros [] size k tr; reflexivity. Qed.

Lemma alloc_all_ok : forall n bs exc sp c i tr p, (0 < n)%nat -> history n bs exc tr p ->
  (length (outstanding tr) + c <= n)%nat ->
  exists l tr' p', p_alloc_all bs exc sp i c p = Ret (Some (map At l), p') /\ history n bs exc tr' p' /\
    length l = c /\ outstanding tr' = rev l ++ outstanding tr.
Proof.
  intros n bs exc sp c. induction c as [|c IH]; intros i tr p Hn H Hc.
  - exists [], tr, p. repeat split; auto.
  - destruct (alloc_one n bs exc tr p bs (sp i) Hn (Z.le_refl bs) H) as [b [p1 [E H1]]]; [lia|].
    destruct (IH (S i) _ p1 Hn H1) as [l [tr' [p' [E' [H' [L O]]]]]]; [cbn [outstanding length]; lia|].
    exists (b :: l), tr', p'. split; [|split; [exact H'|split; [simpl; lia|]]].
    + cbn [p_alloc_all]. rewrite E. cbn [bind fst snd got_block]. rewrite E'. reflexivity.
    + rewrite O. cbn [rev outstanding]. rewrite <- app_assoc. reflexivity.
Qed.

(** Too few blocks: the assertion fails and all of them are in use. *)
Lemma alloc_all_short : forall n bs exc sp c i tr p, (0 < n)%nat -> history n bs exc tr p ->
  (n < length (outstanding tr) + c)%nat -> (length (outstanding tr) <= n)%nat ->
  exists tr' p', p_alloc_all bs exc sp i c p = Ret (None, p') /\ history n bs exc tr' p' /\
    length (outstanding tr') = n.
Proof.
  intros n bs exc sp c. induction c as [|c IH]; intros i tr p Hn H Hc Hl; [lia|].
  destruct (Nat.eq_dec (length (outstanding tr)) n) as [F|F].
  - destruct (alloc_none n bs exc tr p bs (sp i) Hn H (or_introl F)) as [p1 [E H1]].
    exists ((Alloc bs (sp i), alloc_failed exc) :: tr), p1. split; [|split; [exact H1|now rewrite outstanding_failed]].
    cbn [p_alloc_all]. rewrite E. cbn [bind fst snd]. destruct exc; reflexivity.
  - destruct (alloc_one n bs exc tr p bs (sp i) Hn (Z.le_refl bs) H) as [b [p1 [E H1]]]; [lia|].
    destruct (IH (S i) _ p1 Hn H1) as [tr' [p' [E' [H' L]]]]; [cbn [outstanding length]; lia..|].
    exists tr', p'. split; [|split; [exact H'|exact L]].
    cbn [p_alloc_all]. rewrite E. cbn [bind fst snd got_block]. rewrite E'. reflexivity.
Qed.

Lemma free_one : forall n bs exc tr p b, (0 < n)%nat -> history n bs exc tr p -> In b (outstanding tr) ->
  exists p', step bs exc (Free (At b)) p = Ret (ONone, p') /\ history n bs exc ((Free (At b), ONone) :: tr) p'.
Proof.
  intros n bs exc tr p b Hn H Hb.
  destruct (history_safe n bs exc tr p (Free (At b)) Hn H Hb) as [r [p1 E]].
  assert (r = ONone).
  { cbn [step] in E. apply bind_ret_inv in E as [q [_ E]]. congruence. }
  subst r. exists p1. split; [exact E|]. econstructor; eauto.
Qed.

Lemma free_all_ok : forall n bs exc l tr p, (0 < n)%nat -> history n bs exc tr p -> NoDup l ->
  (forall b, In b l -> In b (outstanding tr)) ->
  exists tr' p', p_free_all bs exc (map At l) p = Ret p' /\ history n bs exc tr' p' /\
    forall x, In x (outstanding tr') <-> In x (outstanding tr) /\ ~ In x l.
Proof.
  intros n bs exc l. induction l as [|b l IH]; intros tr p Hn H Hd Hin.
  - exists tr, p. split; [reflexivity|]. split; [exact H|]. simpl. tauto.
  - apply NoDup_cons_iff in Hd as [Hb Hd].
    destruct (free_one n bs exc tr p b Hn H (Hin b (or_introl eq_refl))) as [p1 [E H1]].
    destruct (IH _ p1 Hn H1 Hd) as [tr' [p' [E' [H' O]]]].
    { intros x Hx. cbn [outstanding]. apply remove_in_iff. split; [apply Hin; now right|]. intros ->. contradiction. }
    exists tr', p'. split; [|split; [exact H'|]].
    + cbn [map p_free_all]. rewrite E. cbn [bind snd]. exact E'.
    + intros x. rewrite O. cbn [outstanding]. rewrite remove_in_iff. simpl. split; [intros [[? ?] ?]|intros [? ?]].
      * split; [assumption|]. intros [->|?]; tauto.
      * split; [|tauto]. split; [assumption|]. intros ->. tauto.
Qed.

Lemma fill_and_empty_ok : forall n bs exc sp i tr p, (0 < n)%nat -> history n bs exc tr p -> outstanding tr = [] ->
  exists tr' p', p_fill_and_empty n bs exc sp i p = Ret (true, p') /\ history n bs exc tr' p' /\ outstanding tr' = [].
Proof.
  intros n bs exc sp i tr p Hn H O.
  destruct (alloc_all_ok n bs exc sp n i tr p Hn H) as [l [tr1 [p1 [E1 [H1 [L1 O1]]]]]]; [rewrite O; simpl; lia|].
  rewrite O, app_nil_r in O1.
  destruct (alloc_none n bs exc tr1 p1 bs (sp (i + n)%nat) Hn H1) as [p2 [E2 H2]].
  { left. now rewrite O1, rev_length. }
  assert (Hd : NoDup l).
  { destruct (outstanding_nodup _ _ _ _ _ Hn H1) as [Hd _]. rewrite O1 in Hd. rewrite <- (rev_involutive l).
    now apply NoDup_rev. }
  destruct (free_all_ok n bs exc l _ p2 Hn H2 Hd) as [tr3 [p3 [E3 [H3 O3]]]].
  { intros b Hb. rewrite outstanding_failed, O1. now apply -> in_rev. }
  exists tr3, p3. split; [|split; [exact H3|]].
  - unfold p_fill_and_empty. rewrite E1. cbn [bind fst snd]. rewrite E2. cbn [bind fst snd]. rewrite failed_is_refusal, E3.
    reflexivity.
  - destruct (outstanding tr3) as [|x t] eqn:E; [reflexivity|].
    destruct (proj1 (O3 x) (or_introl eq_refl)) as [A B]. exfalso. apply B.
    rewrite outstanding_failed, O1 in A. now apply in_rev.
Qed.

Lemma once_ok : forall n bs exc tr p size k, (0 < n)%nat -> size <= bs -> history n bs exc tr p ->
  (length (outstanding tr) < n)%nat ->
  exists tr' p', p_alloc_dealloc bs exc size k p = Ret (true, p') /\ history n bs exc tr' p' /\
    outstanding tr' = outstanding tr.
Proof.
  intros n bs exc tr p size k Hn Hs H Hl.
  destruct (alloc_one n bs exc tr p size k Hn Hs H Hl) as [b [p1 [E H1]]].
  destruct (free_one n bs exc _ p1 b Hn H1) as [p2 [E2 H2]]; [now left|].
  exists ((Free (At b), ONone) :: (Alloc size k, OPtr (At b)) :: tr), p2. split; [|split; [exact H2|]].
  - unfold p_alloc_dealloc. rewrite E. cbn [bind fst snd got_block]. rewrite E2. reflexivity.
  - destruct (outstanding_nodup _ _ _ _ _ Hn H1) as [Hd _]. cbn [outstanding] in *.
    apply NoDup_cons_iff in Hd as [Hb _]. cbn [remove]. destruct (Nat.eq_dec b b); [|contradiction].
    now apply notin_remove.
Qed.

Lemma once_none : forall n bs exc tr p size k, (0 < n)%nat -> history n bs exc tr p ->
  length (outstanding tr) = n \/ bs < size ->
  exists tr' p', p_alloc_dealloc bs exc size k p = Ret (false, p') /\ history n bs exc tr' p' /\
    outstanding tr' = outstanding tr.
Proof.
  intros n bs exc tr p size k Hn H Hl.
  destruct (alloc_none n bs exc tr p size k Hn H Hl) as [p1 [E H1]].
  exists ((Alloc size k, alloc_failed exc) :: tr), p1. split; [|split; [exact H1|now rewrite outstanding_failed]].
  unfold p_alloc_dealloc. rewrite E. cbn [bind fst snd]. destruct exc; reflexivity.
Qed.

Lemma cycle_ok : forall n bs exc sp c i tr p, (0 < n)%nat -> history n bs exc tr p ->
  (length (outstanding tr) < n)%nat ->
  exists tr' p', p_cycle bs exc sp i c p = Ret (true, p') /\ history n bs exc tr' p' /\ outstanding tr' = outstanding tr.
Proof.
  intros n bs exc sp c. induction c as [|c IH]; intros i tr p Hn H Hl; [now exists tr, p|].
  destruct (once_ok n bs exc tr p bs (sp i) Hn (Z.le_refl bs) H Hl) as [tr' [p' [E [H' O]]]].
  cbn [p_cycle]. rewrite E. cbn [bind fst snd].
  destruct (IH (S i) tr' p' Hn H') as [tr2 [p2 [E2 [H2 O2]]]]; [now rewrite O|].
  exists tr2, p2. split; [exact E2|]. split; [exact H2|]. now rewrite O2.
Qed.

Lemma outstanding_le : forall n bs exc tr p, (0 < n)%nat -> history n bs exc tr p -> (length (outstanding tr) <= n)%nat.
Proof.
  intros n bs exc tr p Hn H. pose proof (lengths_add _ _ _ (history_inv _ _ _ _ _ Hn H)). lia.
Qed.

Lemma run_test_ok : forall n bs size_max exc c sp tr p, (0 < n)%nat -> 1 <= bs -> history n bs exc tr p ->
  exists tr' p', run_test n bs size_max exc c sp p = Ret (passes n (length (outstanding tr)) c, p') /\
    history n bs exc tr' p' /\ length (outstanding tr') = used_after n (length (outstanding tr)) c.
Proof.
  intros n bs size_max exc c sp tr p Hn Hb H. pose proof (outstanding_le n bs exc tr p Hn H) as Hl.
  destruct c; cbn [run_test passes used_after].
  - unfold p_too_large. destruct (bs <? size_max); [|now exists tr, p].
    destruct (alloc_none n bs exc tr p (bs + 1) (sp 0%nat) Hn H) as [p' [E H']]; [right; lia|].
    eexists _, p'. split; [|split; [exact H'|now rewrite outstanding_failed]].
    rewrite E. cbn [bind fst snd]. now rewrite failed_is_refusal.
  - exists ((Free Null, ONone) :: tr), p. split; [reflexivity|]. split; [|reflexivity].
    econstructor; [exact H|exact I|reflexivity].
  - destruct (Nat.ltb_spec (length (outstanding tr)) n).
    + destruct (once_ok n bs exc tr p 1 (sp 0%nat) Hn Hb H) as [tr' [p' [E [H' O]]]]; [assumption|].
      exists tr', p'. split; [exact E|]. split; [exact H'|now rewrite O].
    + destruct (once_none n bs exc tr p 1 (sp 0%nat) Hn H) as [tr' [p' [E [H' O]]]]; [left; lia|].
      exists tr', p'. split; [exact E|]. split; [exact H'|now rewrite O].
  - unfold p_exhaust. destruct (Nat.eqb_spec (length (outstanding tr)) 0) as [Z|NZ].
    + apply length_zero_iff_nil in Z.
      destruct (fill_and_empty_ok n bs exc sp 0 tr p Hn H Z) as [tr1 [p1 [E [H1 O1]]]].
      destruct (fill_and_empty_ok n bs exc sp (n + 1) tr1 p1 Hn H1 O1) as [tr2 [p2 [E2 [H2 O2]]]].
      exists tr2, p2. rewrite E. cbn [bind fst snd]. split; [exact E2|]. split; [exact H2|now rewrite O2].
    + destruct (alloc_all_short n bs exc sp n 0 tr p Hn H) as [tr1 [p1 [E [H1 L]]]]; [lia|exact Hl|].
      exists tr1, p1. unfold p_fill_and_empty. rewrite E. cbn [bind fst snd]. repeat split; assumption.
  - destruct (Nat.ltb_spec (length (outstanding tr)) n).
    + destruct (cycle_ok n bs exc sp (n * 2 + 1) 0 tr p Hn H) as [tr' [p' [E [H' O]]]]; [assumption|].
      exists tr', p'. split; [exact E|]. split; [exact H'|now rewrite O].
    + replace (n * 2 + 1)%nat with (S (n * 2)) by lia. cbn [p_cycle].
      destruct (once_none n bs exc tr p bs (sp 0%nat) Hn H) as [tr' [p' [E [H' O]]]]; [left; lia|].
      exists tr', p'. rewrite E. cbn [bind fst snd]. split; [reflexivity|]. split; [exact H'|now rewrite O].
Qed.

Lemma run_tests_ok : forall n bs size_max exc cs tr p, (0 < n)%nat -> 1 <= bs -> history n bs exc tr p ->
  exists tr' p', run_tests n bs size_max exc cs p = Ret (verdicts n (length (outstanding tr)) (map fst cs), p') /\
    history n bs exc tr' p' /\
    length (outstanding tr') = fold_left (used_after n) (map fst cs) (length (outstanding tr)).
Proof.
  intros n bs size_max exc cs. induction cs as [|[c sp] cs IH]; intros tr p Hn Hb H; [now exists tr, p|].
  destruct (run_test_ok n bs size_max exc c sp tr p Hn Hb H) as [tr1 [p1 [E [H1 L1]]]].
  destruct (IH tr1 p1 Hn Hb H1) as [tr2 [p2 [E2 [H2 L2]]]]. rewrite L1 in E2, L2.
  exists tr2, p2. cbn [run_tests map fst verdicts fold_left]. rewrite E. cbn [bind fst snd]. rewrite E2. cbn [bind fst snd].
  repeat split; assumption.
Qed.

Lemma verdicts_unused : forall n cs, (0 < n)%nat ->
  verdicts n 0 cs = map (fun _ => true) cs /\ fold_left (used_after n) cs 0%nat = 0%nat.
Proof.
  intros n cs Hn. induction cs as [|c cs [A B]]; [split; reflexivity|]. cbn [verdicts map fold_left].
  assert (used_after n 0 c = 0%nat) as -> by (destruct c; reflexivity).
  assert (passes n 0 c = true) as ->.
  { destruct c; cbn [passes]; try reflexivity; now apply Nat.ltb_lt. }
  now rewrite A.
Qed.

Lemma verdicts_full : forall n cs, (0 < n)%nat ->
  verdicts n n cs = map (fun c => negb (needs_block c)) cs /\ fold_left (used_after n) cs n = n.
Proof.
  intros n cs Hn. induction cs as [|c cs [A B]]; [split; reflexivity|]. cbn [verdicts map fold_left].
  assert (used_after n n c = n) as ->.
  { destruct c; cbn [used_after]; try reflexivity. destruct (Nat.eqb_spec n 0); [lia|reflexivity]. }
  assert (passes n n c = negb (needs_block c)) as ->.
  { destruct c; cbn [passes needs_block negb]; try reflexivity; try apply Nat.ltb_irrefl. apply Nat.eqb_neq. lia. }
  now rewrite A.
Qed.

(** Without BlockSize > 0 the suite cannot be passed. *)
Lemma zero_size_rejected : forall n bs size_max exc sp tr p, (0 < n)%nat -> bs < 1 -> history n bs exc tr p ->
  exists p', run_test n bs size_max exc AllocDealloc sp p = Ret (false, p').
Proof.
  intros n bs size_max exc sp tr p Hn Hb H.
  destruct (once_none n bs exc tr p 1 (sp 0%nat) Hn H) as [tr' [p' [E _]]]; [right; lia|]. now exists p'.
Qed.
