From Coq Require Import ZArith Bool List Lia.
From Verif Require Import Outcome CInt SatMathSpec SatMathModel SatMathProofs TimeModel TimeSpec.
Import ListNotations.
Open Scope Z_scope.

Lemma sum_nonneg : forall ds, Forall (fun d => 0 <= d) ds -> 0 <= sum_list ds.
Proof. induction 1; simpl; [lia|]. unfold sum_list in *. simpl. lia. Qed.

Lemma dur_accumulate : forall P w ds x,
  wf_platform P -> 2 <= w -> sin_range w x ->
  Forall (fun d => 0 <= d /\ sin_range w d) ds ->
  exists xs, accumulate (dur_add P w) x ds = Ret xs /\
             nondecreasing xs /\ hd 0 xs = x /\
             last xs 0 = Z.min (smax w) (x + sum_list ds).
Proof.
  intros P w ds. induction ds as [|d ds IH]; intros x HP Hw Hx Hd.
  - exists [x]. simpl. repeat split; auto. ranges; lia.
  - inversion Hd as [|? ? [Hd0 Hdr] Hds]; subst.
    assert (E : dur_add P w x d = Ret (sclamp w (x + d))).
    { unfold dur_add. apply add_s_exact; auto. intros [_ [_ ?]]; lia. }
    simpl. rewrite E. cbn [bind].
    assert (Hy : sin_range w (sclamp w (x + d))) by (apply sclamp_range; lia).
    destruct (IH _ HP Hw Hy Hds) as [xs [Exs [Hn [Hh Hl]]]].
    exists (x :: xs). rewrite Exs. cbn [bind].
    assert (Hs : 0 <= sum_list ds).
    { apply sum_nonneg. eapply Forall_impl; [|exact Hds]. simpl; intros; lia. }
    assert (Hc : sclamp w (x + d) = Z.min (smax w) (x + d)).
    { unfold sclamp, clamp. repeat bcase; ranges; lia. }
    repeat split.
    + destruct xs as [|z xs']; simpl; [auto|]. simpl in Hh. subst z. split; auto.
      rewrite Hc. ranges; lia.
    + destruct xs as [|z xs'].
      * simpl in Hh. destruct ds; simpl in Exs; [discriminate|].
        destruct (dur_add P w _ z); simpl in Exs; [|discriminate].
        destruct (accumulate _ _ _); simpl in Exs; discriminate.
      * change (last (x :: z :: xs') 0) with (last (z :: xs') 0). rewrite Hl, Hc.
        unfold sum_list in *. simpl. lia.
Qed.

Lemma time_accumulate : forall P w ds x,
  wf_platform P -> 1 <= w -> uin_range w x ->
  Forall (fun d => 0 <= d /\ sin_range w d) ds ->
  exists xs, accumulate (time_add P w) x ds = Ret xs /\
             nondecreasing xs /\ hd 0 xs = x /\
             last xs 0 = Z.min (umax w) (x + sum_list ds).
Proof.
  intros P w ds. induction ds as [|d ds IH]; intros x HP Hw Hx Hd.
  - exists [x]. simpl. repeat split; auto. ranges; lia.
  - inversion Hd as [|? ? [Hd0 Hdr] Hds]; subst.
    pose proof (pow_split w Hw) as Hpw.
    assert (0 < 2 ^ (w - 1)) by (apply pow_pos'; lia).
    assert (E : time_add P w x d = Ret (uclamp w (x + d))).
    { unfold time_add. apply add_us_nonneg; auto. ranges; lia. }
    simpl. rewrite E. cbn [bind].
    assert (Hy : uin_range w (uclamp w (x + d))) by (apply uclamp_range; lia).
    destruct (IH _ HP Hw Hy Hds) as [xs [Exs [Hn [Hh Hl]]]].
    exists (x :: xs). rewrite Exs. cbn [bind].
    assert (Hs : 0 <= sum_list ds).
    { apply sum_nonneg. eapply Forall_impl; [|exact Hds]. simpl; intros; lia. }
    assert (Hc : uclamp w (x + d) = Z.min (umax w) (x + d)).
    { unfold uclamp, clamp. repeat bcase; ranges; lia. }
    repeat split.
    + destruct xs as [|z xs']; simpl; [auto|]. simpl in Hh. subst z. split; auto.
      rewrite Hc. ranges; lia.
    + destruct xs as [|z xs'].
      * destruct ds; simpl in Exs; [discriminate|].
        destruct (time_add P w _ z); simpl in Exs; [|discriminate].
        destruct (accumulate _ _ _); simpl in Exs; discriminate.
      * change (last (x :: z :: xs') 0) with (last (z :: xs') 0). rewrite Hl, Hc.
        unfold sum_list in *. simpl. lia.
Qed.

(** Decreasing a time by non-negative durations stops at zero. *)
Lemma time_decrease : forall P w ds x,
  wf_platform P -> 1 <= w -> uin_range w x ->
  Forall (fun d => 0 <= d /\ sin_range w d) ds ->
  exists xs, accumulate (time_sub P w) x ds = Ret xs /\
             nondecreasing (rev xs) /\ hd 0 xs = x /\
             last xs 0 = Z.max 0 (x - sum_list ds).
Proof.
  intros P w ds. induction ds as [|d ds IH]; intros x HP Hw Hx Hd.
  - exists [x]. simpl. repeat split; auto. ranges; lia.
  - inversion Hd as [|? ? [Hd0 Hdr] Hds]; subst.
    pose proof (pow_split w Hw) as Hpw.
    assert (0 < 2 ^ (w - 1)) by (apply pow_pos'; lia).
    assert (E : time_sub P w x d = Ret (uclamp w (x - d))).
    { unfold time_sub. apply sub_us_nonneg; auto. ranges; lia. }
    simpl. rewrite E. cbn [bind].
    assert (Hy : uin_range w (uclamp w (x - d))) by (apply uclamp_range; lia).
    destruct (IH _ HP Hw Hy Hds) as [xs [Exs [Hn [Hh Hl]]]].
    exists (x :: xs). rewrite Exs. cbn [bind].
    assert (Hs : 0 <= sum_list ds).
    { apply sum_nonneg. eapply Forall_impl; [|exact Hds]. simpl; intros; lia. }
    assert (Hc : uclamp w (x - d) = Z.max 0 (x - d)).
    { unfold uclamp, clamp. repeat bcase; ranges; lia. }
    assert (Hxs : exists z xs', xs = z :: xs').
    { destruct xs as [|z xs']; [|eauto].
      destruct ds; simpl in Exs; [discriminate|].
      destruct (time_sub P w _ z); simpl in Exs; [|discriminate].
      destruct (accumulate _ _ _); simpl in Exs; discriminate. }
    destruct Hxs as [z [xs' ->]].
    repeat split.
    + simpl in Hh. subst z. simpl. simpl in Hn.
      assert (Haux : forall l a b, nondecreasing (l ++ [a]) -> a <= b -> nondecreasing ((l ++ [a]) ++ [b])).
      { clear. induction l as [|u l IHl]; intros a b Hl Hab.
        - simpl. auto.
        - simpl in *. destruct l as [|v l]; simpl in *.
          + intuition.
          + destruct Hl as [Huv Hl]. split; auto. apply (IHl a b); auto. }
      apply Haux; auto. rewrite Hc. ranges; lia.
    + change (last (x :: z :: xs') 0) with (last (z :: xs') 0). rewrite Hl, Hc.
      unfold sum_list in *. simpl. lia.
Qed.

Lemma dur_neg_correct : forall P w a,
  2 <= w -> sin_range w a -> dur_neg P w a = Ret (sclamp w (- a)).
Proof.
  intros P w a Hw Ha. unfold dur_neg, sclamp, clamp.
  assert (0 < 2 ^ (w - 1)) by (apply pow_pos'; lia).
  destruct (Z.eqb_spec a (smin w)).
  - repeat bcase; ranges; (lia || f_equal; lia).
  - rewrite sarith_ret' by (ranges; lia). cbn [bind]. rewrite scast_id by (ranges; lia).
    repeat bcase; ranges; (lia || f_equal; lia).
Qed.

Lemma dur_neg_invol : forall P w a,
  2 <= w -> sin_range w a -> a <> smin w ->
  (let* n := dur_neg P w a in dur_neg P w n) = Ret a.
Proof.
  intros P w a Hw Ha Hne.
  assert (0 < 2 ^ (w - 1)) by (apply pow_pos'; lia).
  rewrite dur_neg_correct by auto. cbn [bind].
  replace (sclamp w (- a)) with (- a) by (unfold sclamp, clamp; repeat bcase; ranges; lia).
  rewrite dur_neg_correct by (auto; ranges; lia).
  unfold sclamp, clamp. repeat bcase; ranges; (lia || f_equal; lia).
Qed.

Lemma dur_neg_min : forall P w,
  2 <= w -> (let* n := dur_neg P w (smin w) in dur_neg P w n) = Ret (smin w + 1).
Proof.
  intros P w Hw.
  assert (0 < 2 ^ (w - 1)) by (apply pow_pos'; lia).
  rewrite dur_neg_correct by (auto; ranges; lia). cbn [bind].
  replace (sclamp w (- smin w)) with (smax w) by (unfold sclamp, clamp; repeat bcase; ranges; lia).
  rewrite dur_neg_correct by (auto; ranges; lia).
  unfold sclamp, clamp. repeat bcase; ranges; (lia || f_equal; lia).
Qed.

Lemma dur_abs_correct : forall P w a,
  wf_platform P -> 2 <= w -> sin_range w a -> a <> smin w ->
  dur_abs P w a = Ret (Z.abs a).
Proof.
  intros P w a [HP _] Hw Ha Hne. unfold dur_abs, cabs.
  assert (0 < 2 ^ (w - 1)) by (apply pow_pos'; lia).
  destruct (Z.eqb_spec a (smin (promoted P w))).
  - exfalso. destruct (Z_lt_le_dec w (int_width P)).
    + rewrite promoted_narrow in e by lia.
      assert (2 ^ (w - 1) < 2 ^ (int_width P - 1)) by (apply Z.pow_lt_mono_r; lia). ranges; lia.
    + rewrite promoted_wide in e by lia. contradiction.
  - cbn [bind]. rewrite scast_id by (ranges; lia). reflexivity.
Qed.

(** For narrow types abs(MIN) is computed in int and then truncated: the result is MIN again. *)
Lemma dur_abs_min_narrow : forall P w,
  wf_platform P -> 2 <= w -> w < int_width P -> dur_abs P w (smin w) = Ret (smin w).
Proof.
  intros P w [HP _] Hw Hn. unfold dur_abs, cabs. rewrite promoted_narrow by lia.
  assert (0 < 2 ^ (w - 1)) by (apply pow_pos'; lia).
  assert (2 ^ (w - 1) < 2 ^ (int_width P - 1)) by (apply Z.pow_lt_mono_r; lia).
  destruct (Z.eqb_spec (smin w) (smin (int_width P))); [ranges; lia|].
  cbn [bind]. unfold scast, smin. f_equal. rewrite Z.abs_neq by lia.
  pose proof (pow_split w ltac:(lia)) as E. rewrite E.
  replace (- - 2 ^ (w - 1) + 2 ^ (w - 1)) with (0 + 1 * (2 * 2 ^ (w - 1))) by lia.
  rewrite Z.mod_add by lia. rewrite Z.mod_0_l by lia. lia.
Qed.

Lemma dur_abs_min_wide : forall P w,
  int_width P <= w -> abs_of_min P w = None -> dur_abs P w (smin w) = UB.
Proof.
  intros P w Hw HN. unfold dur_abs, cabs. rewrite promoted_wide by lia.
  rewrite Z.eqb_refl, HN. reflexivity.
Qed.

Lemma dur_abs_min_wide_value : forall P w v,
  wf_platform P -> int_width P <= w -> abs_of_min P w = Some v -> dur_abs P w (smin w) = Ret v.
Proof.
  intros P w v [HP Hv] Hw HN. unfold dur_abs, cabs. rewrite promoted_wide by lia.
  rewrite Z.eqb_refl, HN. cbn [bind]. rewrite scast_id; auto. lia.
Qed.

Lemma time_add_sub : forall P w t d,
  wf_platform P -> 1 <= w -> uin_range w t -> sin_range w d -> 0 <= d -> t + d <= umax w ->
  (let* u := time_add P w t d in time_sub P w u d) = Ret t.
Proof.
  intros P w t d HP Hw Ht Hd H0 Hm. unfold time_add, time_sub.
  pose proof (pow_split w Hw). assert (0 < 2 ^ (w - 1)) by (apply pow_pos'; lia).
  rewrite add_us_nonneg by (auto; ranges; lia). cbn [bind].
  replace (uclamp w (t + d)) with (t + d) by (unfold uclamp, clamp; repeat bcase; ranges; lia).
  rewrite sub_us_nonneg by (auto; ranges; lia).
  unfold uclamp, clamp. repeat bcase; ranges; (lia || f_equal; lia).
Qed.

Lemma time_sub_add : forall P w t d,
  wf_platform P -> 1 <= w -> uin_range w t -> sin_range w d -> 0 <= d -> d <= t ->
  (let* u := time_sub P w t d in time_add P w u d) = Ret t.
Proof.
  intros P w t d HP Hw Ht Hd H0 Hm. unfold time_add, time_sub.
  pose proof (pow_split w Hw). assert (0 < 2 ^ (w - 1)) by (apply pow_pos'; lia).
  rewrite sub_us_nonneg by (auto; ranges; lia). cbn [bind].
  replace (uclamp w (t - d)) with (t - d) by (unfold uclamp, clamp; repeat bcase; ranges; lia).
  rewrite add_us_nonneg by (auto; ranges; lia).
  unfold uclamp, clamp. repeat bcase; ranges; (lia || f_equal; lia).
Qed.

(** Once saturated, the original is not recovered. *)
Lemma time_add_sub_saturated : forall P w t d,
  wf_platform P -> 1 <= w -> uin_range w t -> sin_range w d -> 0 <= d -> umax w < t + d ->
  (let* u := time_add P w t d in time_sub P w u d) = Ret (umax w - d) /\ umax w - d < t.
Proof.
  intros P w t d HP Hw Ht Hd H0 Hm. unfold time_add, time_sub.
  pose proof (pow_split w Hw). assert (0 < 2 ^ (w - 1)) by (apply pow_pos'; lia).
  split; [|lia].
  rewrite add_us_nonneg by (auto; ranges; lia). cbn [bind].
  replace (uclamp w (t + d)) with (umax w) by (unfold uclamp, clamp; repeat bcase; ranges; lia).
  rewrite sub_us_nonneg by (auto; ranges; lia).
  unfold uclamp, clamp. repeat bcase; ranges; (lia || f_equal; lia).
Qed.

Lemma time_sub_add_saturated : forall P w t d,
  wf_platform P -> 1 <= w -> uin_range w t -> sin_range w d -> 0 <= d -> t < d ->
  (let* u := time_sub P w t d in time_add P w u d) = Ret d.
Proof.
  intros P w t d HP Hw Ht Hd H0 Hm. unfold time_add, time_sub.
  pose proof (pow_split w Hw). assert (0 < 2 ^ (w - 1)) by (apply pow_pos'; lia).
  rewrite sub_us_nonneg by (auto; ranges; lia). cbn [bind].
  replace (uclamp w (t - d)) with 0 by (unfold uclamp, clamp; repeat bcase; ranges; lia).
  rewrite add_us_nonneg by (auto; ranges; lia).
  unfold uclamp, clamp. repeat bcase; ranges; (lia || f_equal; lia).
Qed.

Lemma xfer_spec : forall st c v,
  exec_xfer st c v =
    match c with
    | CopyTo dst src => copied dst src v st
    | MoveTo dst src => moved dst src v st
    end.
Proof.
  intros st [dst src|dst src] v; unfold exec_xfer, copied, moved, upd; reflexivity.
Qed.



Definition distinct_values (st : store) : Prop :=
  forall x y, st x = st y -> st x <> 0 -> x = y.

Lemma moves_keep_distinct : forall cs st,
  Forall is_move cs -> distinct_values st -> distinct_values (exec_xfers st cs).
Proof.
  induction cs as [|c cs IH]; intros st Hm Hd; [exact Hd|].
  inversion Hm as [|? ? Hc Hcs]; subst. simpl. apply IH; auto.
  destruct c as [|dst src]; [contradiction|].
  intros x y. rewrite !(xfer_spec st (MoveTo dst src)). unfold moved.
  destruct (Nat.eqb_spec x src), (Nat.eqb_spec y src), (Nat.eqb_spec x dst), (Nat.eqb_spec y dst); subst;
    intros E N; try congruence; try (exfalso; auto; fail);
    specialize (Hd _ _ E N); congruence.
Qed.

Lemma comparisons_spec : forall a b,
  (op_eq a b = true <-> a = b) /\ (op_ne a b = true <-> a <> b) /\
  (op_lt a b = true <-> a < b) /\ (op_gt a b = true <-> a > b) /\
  (op_le a b = true <-> a <= b) /\ (op_ge a b = true <-> a >= b).
Proof.
  intros a b. unfold op_ne, op_eq, op_lt, op_gt, op_le, op_ge.
  rewrite negb_true_iff, Z.eqb_neq, Z.eqb_eq, !Z.ltb_lt, !Z.leb_le. lia.
Qed.

Lemma comparisons_order : forall a b c,
  (op_lt a b = true \/ op_eq a b = true \/ op_gt a b = true) /\
  (op_lt a b = true -> op_lt b a = false /\ op_eq a b = false) /\
  (op_lt a b = true -> op_lt b c = true -> op_lt a c = true) /\
  (op_le a b = negb (op_gt a b)) /\ (op_ge a b = negb (op_lt a b)) /\
  (op_le a b = true -> op_le b a = true -> op_eq a b = true).
Proof.
  intros a b c. unfold op_ne, op_eq, op_lt, op_gt, op_le, op_ge.
  rewrite !Z.ltb_lt, !Z.eqb_eq, !Z.leb_le, Z.ltb_ge, Z.eqb_neq.
  rewrite <- !Z.leb_antisym. intuition; lia.
Qed.

Lemma xfers_spec : forall cs st c v,
  exec_xfers st (cs ++ [c]) v =
    match c with
    | CopyTo dst src => copied dst src v (exec_xfers st cs)
    | MoveTo dst src => moved dst src v (exec_xfers st cs)
    end.
Proof.
  intros. unfold exec_xfers. rewrite fold_left_app. simpl. apply xfer_spec.
Qed.

(** ** Histories of signed steps *)
Lemma clamp_minmax : forall w x, 2 <= w -> sclamp w x = Z.max (smin w) (Z.min (smax w) x).
Proof.
  intros w x Hw. assert (smin w < smax w).
  { unfold smin, smax. pose proof (Z.pow_pos_nonneg 2 (w - 1) ltac:(lia) ltac:(lia)). lia. }
  unfold sclamp, clamp. destruct (Z.ltb_spec x (smin w)); destruct (Z.ltb_spec (smax w) x); lia.
Qed.

Lemma exec_dop_iff : forall P w x o,
  wf_platform P -> abs_of_min P w = None -> 2 <= w -> sin_range w x -> sin_range w (operand_of o) ->
  (exec_dop P w x o = UB <-> int_width P <= w /\ x = 0 /\ lowers o) /\
  (forall v, exec_dop P w x o = Ret v -> v = Z.max (smin w) (Z.min (smax w) (x + step_of o))).
Proof.
  intros P w x o HP HA Hw Hx Ho. destruct o as [d|d]; cbn [exec_dop operand_of step_of lowers] in *.
  - destruct (add_s_iff P w x d HP HA Hw Hx Ho) as [A B]. split; [exact A|].
    intros v Hv. rewrite (B v Hv). apply clamp_minmax; lia.
  - destruct (sub_s_iff P w x d HP HA Hw Hx Ho) as [A B]. split; [exact A|].
    intros v Hv. rewrite (B v Hv). replace (x + - d) with (x - d) by lia. apply clamp_minmax; lia.
Qed.

Lemma confined_in_range : forall w y, 2 <= w -> sin_range w (Z.max (smin w) (Z.min (smax w) y)).
Proof.
  intros w y Hw. assert (smin w < smax w).
  { unfold smin, smax. pose proof (Z.pow_pos_nonneg 2 (w - 1) ltac:(lia) ltac:(lia)). lia. }
  unfold sin_range. lia.
Qed.

Lemma walk_nonempty : forall lo hi x ss, confined_walk lo hi x ss <> [].
Proof. intros lo hi x [|s ss]; discriminate. Qed.

Lemma end_of_cons : forall x xs, xs <> [] -> end_of (x :: xs) = end_of xs.
Proof. intros x [|y xs] H; [congruence|reflexivity]. Qed.

Lemma run_dops_value : forall P w ops x xs,
  wf_platform P -> abs_of_min P w = None -> 2 <= w -> sin_range w x ->
  Forall (fun o => sin_range w (operand_of o)) ops ->
  run_dops P w x ops = Ret xs -> xs = confined_walk (smin w) (smax w) x (map step_of ops).
Proof.
  intros P w ops. induction ops as [|o ops IH]; intros x xs HP HA Hw Hx Ho H; cbn [run_dops map confined_walk] in *.
  - congruence.
  - inversion Ho; subst. apply bind_ret_inv in H. destruct H as (y & Hy & H).
    apply bind_ret_inv in H. destruct H as (tl & Ht & H).
    assert (xs = x :: tl) as -> by congruence. f_equal.
    destruct (exec_dop_iff P w x o HP HA Hw Hx) as [_ B]; [assumption|].
    specialize (B y Hy). rewrite <- B. apply (IH y tl); auto. rewrite B. apply confined_in_range; lia.
Qed.

Lemma run_dops_ub : forall P w ops x,
  wf_platform P -> abs_of_min P w = None -> 2 <= w -> sin_range w x ->
  Forall (fun o => sin_range w (operand_of o)) ops ->
  (run_dops P w x ops = UB <->
   int_width P <= w /\
   exists before o after, ops = before ++ o :: after /\ lowers o /\
     end_of (confined_walk (smin w) (smax w) x (map step_of before)) = 0).
Proof.
  intros P w ops. induction ops as [|o ops IH]; intros x HP HA Hw Hx Ho; cbn [run_dops].
  - split; [discriminate|]. intros (_ & b & o & a & E & _). destruct b; discriminate.
  - inversion Ho as [|? ? Ho1 Ho2]; subst.
    destruct (exec_dop_iff P w x o HP HA Hw Hx Ho1) as [A B].
    destruct (exec_dop P w x o) as [y|] eqn:E; cbn [bind].
    + specialize (B y eq_refl).
      assert (Hy : sin_range w y) by (rewrite B; apply confined_in_range; lia).
      specialize (IH y HP HA Hw Hy Ho2).
      assert (G : (let* tail := run_dops P w y ops in Ret (x :: tail)) = UB <-> run_dops P w y ops = UB).
      { destruct (run_dops P w y ops); cbn [bind]; split; congruence. }
      rewrite G, IH. split.
      * intros (W & b & o' & a & E1 & L & Z0). split; [exact W|].
        exists (o :: b), o', a. split; [cbn; congruence|]. split; [exact L|].
        cbn [map confined_walk]. rewrite end_of_cons by apply walk_nonempty. rewrite <- B. exact Z0.
      * intros (W & b & o' & a & E1 & L & Z0). split; [exact W|].
        destruct b as [|o1 b]; cbn [app] in E1; injection E1 as E1 E2.
        -- subst o'. exfalso. cbn in Z0. assert (@Ret Z y = UB) by (apply A; auto). discriminate.
        -- subst o1. exists b, o', a. split; [exact E2|]. split; [exact L|].
           cbn [map confined_walk] in Z0. rewrite end_of_cons in Z0 by apply walk_nonempty. rewrite <- B in Z0. exact Z0.
    + split; [|reflexivity]. intros _. destruct (proj1 A eq_refl) as (W & X0 & L). split; [exact W|].
      exists [], o, ops. split; [reflexivity|]. split; [exact L|]. cbn. exact X0.
Qed.

Lemma dur_max_greatest : forall P w d, wf_platform P -> 2 <= w -> sin_range w d ->
  sin_range w (dur_max w) /\ op_le d (dur_max w) = true /\
  (0 <= d -> dur_add P w (dur_max w) d = Ret (dur_max w)) /\
  (dur_sub P w (dur_max w) d = Ret (Z.min (dur_max w) (dur_max w - d))).
Proof.
  intros P w d HP Hw Hd. unfold dur_max, op_le.
  assert (B : 0 < smax w /\ smin w = - smax w - 1).
  { unfold smin, smax. pose proof (Z.pow_le_mono_r 2 1 (w - 1) ltac:(lia) ltac:(lia)). lia. }
  assert (R : sin_range w (smax w)) by (unfold sin_range; lia).
  split; [exact R|]. split; [apply Z.leb_le; unfold sin_range in Hd; lia|]. split.
  - intros H0. unfold dur_add. rewrite add_s_partial; auto. rewrite clamp_minmax by lia. f_equal. lia.
  - unfold dur_sub. rewrite sub_s_partial; auto; [|left; lia]. rewrite clamp_minmax by lia. f_equal.
    unfold sin_range in Hd. lia.
Qed.

Lemma time_max_greatest : forall P w t d, wf_platform P -> 1 <= w -> uin_range w t -> 0 <= d -> sin_range w d ->
  uin_range w (time_max w) /\ op_le t (time_max w) = true /\
  time_add P w (time_max w) d = Ret (time_max w) /\ time_sub P w (time_max w) d = Ret (time_max w - d).
Proof.
  intros P w t d HP Hw Ht Hd Hr. unfold time_max, op_le.
  assert (B : 0 < umax w /\ smax w <= umax w).
  { unfold umax, smax. pose proof (Z.pow_le_mono_r 2 1 w ltac:(lia) ltac:(lia)).
    pose proof (Z.pow_le_mono_r 2 (w - 1) w ltac:(lia) ltac:(lia)). lia. }
  assert (R : uin_range w (umax w)) by (unfold uin_range; lia).
  unfold sin_range in Hr.
  split; [exact R|]. split; [apply Z.leb_le; unfold uin_range in Ht; lia|].
  unfold time_add, time_sub. rewrite add_us_nonneg, sub_us_nonneg; auto; try lia.
  unfold uclamp, clamp. split; f_equal;
    repeat match goal with |- context [?a <? ?b] => destruct (Z.ltb_spec a b) end; lia.
Qed.

(** ** Histories of a time with signed durations. *)
Lemma exec_top_value : forall P w x o, wf_platform P -> 1 <= w -> uin_range w x ->
  exists y, exec_top P w x o = Ret y /\ uin_range w y.
Proof.
  intros P w x o HP Hw Hx.
  assert (C : forall v, uin_range w (uclamp w v)).
  { intros v. unfold uin_range, uclamp, clamp, umax. pose proof (pow_pos' w ltac:(lia)).
    destruct (Z.ltb_spec v 0); [lia|]. destruct (Z.ltb_spec (2 ^ w - 1) v); lia. }
  destruct o as [d|d]; cbn [exec_top]; unfold time_add, time_sub.
  - rewrite add_us_value by auto. destruct (0 <=? d); eexists; split; auto.
  - rewrite sub_us_value by auto. destruct (0 <=? d); eexists; split; auto.
Qed.

Lemma exec_top_iff : forall P w x o, wf_platform P -> 1 <= w -> uin_range w x -> sin_range w (operand_of o) ->
  (exec_top P w x o = Ret (Z.max 0 (Z.min (umax w) (x + step_of o))) <-> right_step w x o).
Proof.
  intros P w x o HP Hw Hx Ho.
  assert (C : forall v, uclamp w v = Z.max 0 (Z.min (umax w) v)).
  { intros v. unfold uclamp, clamp, umax. pose proof (pow_pos' w ltac:(lia)).
    destruct (Z.ltb_spec v 0); [lia|]. destruct (Z.ltb_spec (2 ^ w - 1) v); lia. }
  destruct o as [d|d]; cbn [exec_top step_of operand_of] in *; unfold right_step; cbn [operand_of]; unfold time_add, time_sub.
  - rewrite <- C. apply add_us_correct_iff; auto.
  - rewrite <- C. replace (x + - d) with (x - d) by lia. apply sub_us_correct_iff; auto.
Qed.

Lemma run_tops_total : forall P w ops x, wf_platform P -> 1 <= w -> uin_range w x ->
  exists xs, run_tops P w x ops = Ret xs /\ Forall (uin_range w) xs /\ length xs = S (length ops).
Proof.
  intros P w ops. induction ops as [|o ops IH]; intros x HP Hw Hx; cbn [run_tops].
  - exists [x]. auto.
  - destruct (exec_top_value P w x o HP Hw Hx) as (y & -> & Hy). cbn [bind].
    destruct (IH y HP Hw Hy) as (xs & -> & F & L). cbn [bind]. exists (x :: xs). cbn [length]. auto.
Qed.

Lemma run_tops_head : forall P w ops x xs, run_tops P w x ops = Ret xs -> exists t, xs = x :: t.
Proof.
  intros P w [|o ops] x xs H; cbn [run_tops] in H.
  - exists []. congruence.
  - apply bind_ret_inv in H. destruct H as (y & _ & H). apply bind_ret_inv in H. destruct H as (tl & _ & H).
    exists tl. congruence.
Qed.

Lemma walk_head : forall lo hi x steps, exists t, confined_walk lo hi x steps = x :: t.
Proof. intros lo hi x [|s r]; cbn; eauto. Qed.

Lemma run_tops_iff : forall P w ops x, wf_platform P -> 1 <= w -> uin_range w x ->
  Forall (fun o => sin_range w (operand_of o)) ops ->
  (run_tops P w x ops = Ret (confined_walk 0 (umax w) x (map step_of ops)) <->
   forall before o after, ops = before ++ o :: after ->
     right_step w (end_of (confined_walk 0 (umax w) x (map step_of before))) o).
Proof.
  intros P w ops. induction ops as [|o ops IH]; intros x HP Hw Hx Ho.
  - cbn. split; auto. intros _ [|? ?] ? ? E; discriminate.
  - inversion Ho as [|? ? Ho1 Ho2]; subst. cbn [run_tops map confined_walk].
    destruct (exec_top_value P w x o HP Hw Hx) as (y & E & Hy).
    pose proof (exec_top_iff P w x o HP Hw Hx Ho1) as A. rewrite E in *. cbn [bind].
    set (z := Z.max 0 (Z.min (umax w) (x + step_of o))) in *.
    destruct (run_tops_total P w ops y HP Hw Hy) as (xs & R & _). rewrite R. cbn [bind]. split.
    + intros H before o' after D.
      assert (X : xs = confined_walk 0 (umax w) z (map step_of ops)) by congruence.
      destruct (run_tops_head P w ops y xs R) as (t & X1). destruct (walk_head 0 (umax w) z (map step_of ops)) as (t' & X2).
      assert (y = z) by congruence. subst y.
      destruct before as [|o1 before]; cbn [app] in D; injection D as D1 D2.
      * subst o'. cbn. apply A. reflexivity.
      * subst o1. cbn [map confined_walk]. rewrite end_of_cons by apply walk_nonempty.
        apply (proj1 (IH z HP Hw Hy Ho2) (eq_trans R (f_equal Ret X)) before o' after D2).
    + intros H. assert (Y : y = z).
      { assert (Ret y = Ret z) by (apply A; apply (H [] o ops eq_refl)). congruence. }
      subst y. assert (X : run_tops P w z ops = Ret (confined_walk 0 (umax w) z (map step_of ops))).
      { apply IH; auto. intros b o' a D. specialize (H (o :: b) o' a). cbn [app map confined_walk] in H.
        rewrite end_of_cons in H by apply walk_nonempty. apply H. congruence. }
      rewrite R in X. congruence.
Qed.
